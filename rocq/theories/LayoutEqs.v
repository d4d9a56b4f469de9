(** The equations of the compiler and of the layout, one for each construct. *)
From Coq Require Import ZArith Bool List.
From Verif Require Import Base FloatModel PolyModel ValueModel MathModel MachModel BinModel CodeModel CompModel FrameModel ExecModel LayoutSpec.
Import ListNotations.
Local Open Scope Z_scope.
Local Open Scope outcome_scope.

Section Eqs.
Variable w : width.
Variable i8 : float -> Z.
Notation size := (size w).
Notation osize := (osize w).
Notation inum := (inum i8).
Notation push_prev := CompModel.push_prev.
Notation chain_start := (chain_start w).
Notation relse := (relse w).
Notation gen_strings := (gen_strings w).
Notation gen_target := (gen_target w i8).
Notation patch_loop := (patch_loop w).
Notation comp := (comp w i8).
Notation cargs := (cargs w i8).
Notation cdents := (cdents w i8).
Notation copt := (copt w i8).
Notation clinks := (clinks w i8).
Notation cstmt := (cstmt w i8).
Notation crest := (crest w i8).
Notation gen := (gen w i8).
Notation gen_args := (gen_args w i8).
Notation gen_dents := (gen_dents w i8).
Notation gen_opt := (gen_opt w i8).
Notation gen_links := (gen_links w i8).
Notation gen_stmt := (gen_stmt w i8).
Notation gen_rest := (gen_rest w i8).

Lemma comp_ENum_f_eq : forall p b f, comp p b (ENum f)  =
  ( [inum p f]).
Proof. reflexivity. Qed.
Lemma comp_EStr_l_ls_eq : forall p b l ls, comp p b (EStr l ls)  =
  ( io KString (p || match ls with [] => false | _ => true end) (Z.of_nat l) :: cstrs p ls).
Proof. reflexivity. Qed.
Lemma comp_EId_id_eq : forall p b id, comp p b (EId id)  =
  ( [io KId p id]).
Proof. reflexivity. Qed.
Lemma comp_EList_a_eq : forall p b a, comp p b (EList a)  =
  ( cargs b a ++ [io (KMake KList) p (nargs a)]).
Proof. reflexivity. Qed.
Lemma comp_ETuple_a_eq : forall p b a, comp p b (ETuple a)  =
  ( cargs b a ++ [io (KMake KTuple) p (nargs a)]).
Proof. reflexivity. Qed.
Lemma comp_EDict_d_eq : forall p b d, comp p b (EDict d)  =
  ( cdents b d ++ [io (KMake KDict) p (ndents d)]).
Proof. reflexivity. Qed.
Lemma comp_EBin_n_x_y_eq : forall p b n x y, comp p b (EBin n x y)  =
  (
      let cx := comp true b x in
      cx ++ comp false (b + size cx) y ++ [i0 (KBin (BNum n)) p]).
Proof. reflexivity. Qed.
Lemma comp_EUn_UPlus_x_eq : forall p b x, comp p b (EUn UPlus x)  =
  ( comp p b x).
Proof. reflexivity. Qed.
Lemma comp_EUn_UNot_x_eq : forall p b x, comp p b (EUn UNot x)  =
  ( comp false b x ++ [i0 (unop_code UNot) p]).
Proof. reflexivity. Qed.
Lemma comp_EUn_UMinus_x_eq : forall p b x, comp p b (EUn UMinus x)  =
  ( comp false b x ++ [i0 (unop_code UMinus) p]).
Proof. reflexivity. Qed.
Lemma comp_EUn_ULnot_x_eq : forall p b x, comp p b (EUn ULnot x)  =
  ( comp false b x ++ [i0 (unop_code ULnot) p]).
Proof. reflexivity. Qed.
Lemma comp_EIndex_x_i_eq : forall p b x i, comp p b (EIndex x i)  =
  (
      let cx := comp true b x in
      cx ++ comp false (b + size cx) i ++ [i0 (KBin BArray) p]).
Proof. reflexivity. Qed.
Lemma comp_ESlice_x_l_m_n_eq : forall p b x l m n, comp p b (ESlice x l m n)  =
  (
      let cx := comp true b x in
      let b1 := (b + size cx)%nat in
      let cl := copt b1 l in
      let b2 := (b1 + size cl)%nat in
      let cm := copt b2 m in
      let b3 := (b2 + size cm)%nat in
      cx ++ cl ++ cm ++ copt b3 n ++ [I KSlice p (AByte (obit l * 1 + obit m * 2 + obit n * 4))]).
Proof. reflexivity. Qed.
Lemma comp_ECall_f_a_eq : forall p b f a, comp p b (ECall f a)  =
  (
      let cf := comp true b f in
      cf ++ cargs (b + size cf) a ++ [io KCall p (nargs a)]).
Proof. reflexivity. Qed.
Lemma comp_EAnd_x_y_eq : forall p b x y, comp p b (EAnd x y)  =
  (
      let cx := comp false b x in
      let b1 := (b + size cx + osize)%nat in
      let cy := comp false b1 y in
      cx ++ [io KBranchFalse false (Z.of_nat (b1 + size cy))] ++ cy ++ [i0 KNop p]).
Proof. reflexivity. Qed.
Lemma comp_EOr_x_y_eq : forall p b x y, comp p b (EOr x y)  =
  (
      let cx := comp false b x in
      let b1 := (b + size cx + osize)%nat in
      let cy := comp false b1 y in
      cx ++ [io KBranchTrue false (Z.of_nat (b1 + size cy))] ++ cy ++ [i0 KNop p]).
Proof. reflexivity. Qed.
Lemma comp_ECmp_x_l_eq : forall p b x l, comp p b (ECmp x l)  =
  (
      let cx := comp true b x in
      let b1 := (b + size cx)%nat in
      cx ++ clinks (Some (b1 + size (clinks None b1 l))%nat) b1 l ++ [i0 KNop p]).
Proof. reflexivity. Qed.
Lemma cargs_ANil_eq : forall b, cargs b (ANil)  =
  ( []).
Proof. reflexivity. Qed.
Lemma cargs_APos_e_r_eq : forall b e r, cargs b (APos e r)  =
  ( let ce := comp true b e in ce ++ cargs (b + size ce) r).
Proof. reflexivity. Qed.
Lemma cargs_ANamed_id_e_r_eq : forall b id e r, cargs b (ANamed id e r)  =
  (
      let cn := [inum true (f_of_Z id)] in
      let b1 := (b + size cn)%nat in
      let ce := comp true b1 e in
      cn ++ ce ++ cargs (b1 + size ce) r).
Proof. reflexivity. Qed.
Lemma cdents_DNil_eq : forall b, cdents b (DNil)  =
  ( []).
Proof. reflexivity. Qed.
Lemma cdents_DCons_k_v_r_eq : forall b k v r, cdents b (DCons k v r)  =
  (
      let ck := comp true b k in
      let b1 := (b + size ck)%nat in
      let cv := comp true b1 v in
      ck ++ cv ++ cdents (b1 + size cv) r).
Proof. reflexivity. Qed.
Lemma copt_ONone_eq : forall b, copt b (ONone)  =
  ([]).
Proof. reflexivity. Qed.
Lemma copt_OSome_e_eq : forall b e, copt b (OSome e)  =
  (comp true b e).
Proof. reflexivity. Qed.
Lemma clinks_LLast_k_y_eq : forall t b k y, clinks t b (LLast k y)  =
  ( comp false b y ++ [i0 (KBin k) false]).
Proof. reflexivity. Qed.
Lemma clinks_LMore_k_y_l_eq : forall t b k y l, clinks t b (LMore k y l)  =
  (
      let cy := comp false b y in
      cy ++ [match t with
             | Some t => io (match k with BCmp c => KChain c | _ => KNop end) true (Z.of_nat t)
             | None => io KForward true (fwd_code FCmp + 256 * (op_code (KBin k) + 6))
             end] ++ clinks t (b + size cy + osize) l).
Proof. reflexivity. Qed.
Lemma cstmt_SSkip_eq : forall d b k c, cstmt d b k c (SSkip)  =
  ( []).
Proof. reflexivity. Qed.
Lemma cstmt_SSeq_s_t_eq : forall d b k c s t, cstmt d b k c (SSeq s t)  =
  ( let cs := cstmt d b k c s in cs ++ cstmt d (b + size cs) k c t).
Proof. reflexivity. Qed.
Lemma cstmt_SLine_n_eq : forall d b k c n, cstmt d b k c (SLine n)  =
  ( [io KLine false n]).
Proof. reflexivity. Qed.
Lemma cstmt_SExpr_e_eq : forall d b k c e, cstmt d b k c (SExpr e)  =
  ( comp false b e).
Proof. reflexivity. Qed.
Lemma cstmt_SAssign_a_TId_id_e_eq : forall d b k c a id e, cstmt d b k c (SAssign a (TId id) e)  =
  ( comp false b e ++ [io (assign_op a) false id]).
Proof. reflexivity. Qed.
Lemma cstmt_SAssign_a_TElem_l_i_e_eq : forall d b k c a l i e, cstmt d b k c (SAssign a (TElem l i) e)  =
  (
      let cl := comp true b l in
      let b1 := (b + size cl)%nat in
      let ci := comp true b1 i in
      cl ++ ci ++ comp false (b1 + size ci) e ++ [io (assign_op a) false 0]).
Proof. reflexivity. Qed.
Lemma cstmt_SDel_TId_id_eq : forall d b k c id, cstmt d b k c (SDel (TId id))  =
  ( [io KDel false id]).
Proof. reflexivity. Qed.
Lemma cstmt_SDel_TElem_l_i_eq : forall d b k c l i, cstmt d b k c (SDel (TElem l i))  =
  (
      let cl := comp true b l in
      cl ++ comp false (b + size cl) i ++ [io KDel false 0]).
Proof. reflexivity. Qed.
Lemma cstmt_SReturn_ONone_eq : forall d b k c, cstmt d b k c (SReturn ONone)  =
  ( [i0 KNull false; i0 KReturn false]).
Proof. reflexivity. Qed.
Lemma cstmt_SReturn_OSome_e_eq : forall d b k c e, cstmt d b k c (SReturn (OSome e))  =
  ( comp false b e ++ [i0 KReturn false]).
Proof. reflexivity. Qed.
Lemma cstmt_SBreak_eq : forall d b k c, cstmt d b k c (SBreak)  =
  ( [jump k FBreak]).
Proof. reflexivity. Qed.
Lemma cstmt_SContinue_eq : forall d b k c, cstmt d b k c (SContinue)  =
  ( [jump c FContinue]).
Proof. reflexivity. Qed.
Lemma cstmt_SGlobal_id_eq : forall d b k c id, cstmt d b k c (SGlobal id)  =
  ( [io KGlobal false id]).
Proof. reflexivity. Qed.
Lemma cstmt_SAssert_e_eq : forall d b k c e, cstmt d b k c (SAssert e)  =
  ( comp false b e ++ [i0 KAssert false]).
Proof. reflexivity. Qed.
Lemma cstmt_SIf_e_s_r_eq : forall d b k c e s r, cstmt d b k c (SIf e s r)  =
  (
      let ce := comp false b e in
      let b1 := (b + size ce + osize)%nat in
      let cs := cstmt d b1 k c s in
      let b2 := (b1 + size cs)%nat in
      ce ++ [io KBranchFalse false (Z.of_nat (b2 + relse r))] ++ cs ++
      crest d b2 k c (Some (b2 + size (crest d b2 k c None r))%nat) r).
Proof. reflexivity. Qed.
Lemma cstmt_SWhile_e_s_els_eq : forall d b k c e s els, cstmt d b k c (SWhile e s els)  =
  (
      let ce := comp false b e in
      let b1 := (b + size ce + osize)%nat in
      let b2 := (b1 + size (cstmt d b1 None None s) + osize)%nat in
      let cels := cstmt d b2 k c els in
      ce ++ [io KBranchFalse false (Z.of_nat b2)] ++
      cstmt d b1 (Some (b2 + size cels)%nat) (Some b) s ++ [io KBranch false (Z.of_nat b)] ++ cels).
Proof. reflexivity. Qed.
Lemma cstmt_SRange_id_a_s_els_eq : forall d b k c id a s els, cstmt d b k c (SRange id a s els)  =
  (
      let ca := cargs b a in
      let st := [I KRangeStart false (AStep (nargs a) d id)] in
      let b0 := (b + size ca + size st)%nat in
      let b1 := (b0 + size st)%nat in
      let b2 := (b1 + size (cstmt (d + 1) b1 None None s) + osize)%nat in
      let cels := cstmt d b2 k c els in
      ca ++ st ++ [I KRangeStep false (AStep (Z.of_nat b2) d id)] ++
      cstmt (d + 1) b1 (Some (b2 + size cels)%nat) (Some b0) s ++ [io KBranch false (Z.of_nat b0)] ++ cels).
Proof. reflexivity. Qed.
Lemma cstmt_SFor_id_e_s_els_eq : forall d b k c id e s els, cstmt d b k c (SFor id e s els)  =
  (
      let ce := comp false b e ++ [io KAssign false (for_tmp w d 0); inum false f_zero; io KAssign false (for_tmp w d 1)] in
      let b0 := (b + size ce)%nat in
      let b1 := (b0 + size [I KInStep false (AStep 0 d id)])%nat in
      let b2 := (b1 + size (cstmt (d + 1) b1 None None s) + osize)%nat in
      let cels := cstmt d b2 k c els in
      ce ++ [I KInStep false (AStep (Z.of_nat b2) d id)] ++
      cstmt (d + 1) b1 (Some (b2 + size cels)%nat) (Some b0) s ++ [io KBranch false (Z.of_nat b0)] ++ cels).
Proof. reflexivity. Qed.
Lemma crest_RNone_eq : forall d b k c fin, crest d b k c fin (RNone)  =
  ( []).
Proof. reflexivity. Qed.
Lemma crest_RElse_s_eq : forall d b k c fin s, crest d b k c fin (RElse s)  =
  ( [jump fin FIf] ++ cstmt d (b + osize) k c s).
Proof. reflexivity. Qed.
Lemma crest_RElif_line_e_s_r_eq : forall d b k c fin line e s r, crest d b k c fin (RElif line e s r)  =
  (
      let b0 := (b + osize + osize)%nat in
      let ce := comp false b0 e in
      let b1 := (b0 + size ce + osize)%nat in
      let cs := cstmt d b1 k c s in
      let b2 := (b1 + size cs)%nat in
      [io KLine false line; jump fin FIf] ++ ce ++
      [io KBranchFalse false (Z.of_nat (b2 + relse r))] ++ cs ++ crest d b2 k c fin r).
Proof. reflexivity. Qed.
Lemma gen_ENum_f_eq : forall f c, gen  (ENum f) c =
  ( Ok (add_number i8 f c)).
Proof. reflexivity. Qed.
Lemma gen_EStr_l_ls_eq : forall l ls c, gen  (EStr l ls) c =
  ( gen_strings ls (add_string w l c)).
Proof. reflexivity. Qed.
Lemma gen_EId_id_eq : forall id c, gen  (EId id) c =
  ( Ok (add_off w KId id c)).
Proof. reflexivity. Qed.
Lemma gen_EList_a_eq : forall a c, gen  (EList a) c =
  (
      let! (n, c) := gen_args a 0 c in
      if 256 <=? n then Err else Ok (add_off w (KMake KList) n c)).
Proof. reflexivity. Qed.
Lemma gen_ETuple_a_eq : forall a c, gen  (ETuple a) c =
  (
      match a with
      | ANil => Ok (add_off w (KMake KTuple) 0 c)
      | APos e a =>
          let! c := gen e c in
          let! c := push_prev c in
          let! (n, c) := gen_args a 0 c in
          if 256 <=? n then Err else Ok (add_off w (KMake KTuple) (n + 1) c)
      | ANamed _ _ _ => Err
      end).
Proof. reflexivity. Qed.
Lemma gen_EDict_d_eq : forall d c, gen  (EDict d) c =
  ( let! (n, c) := gen_dents d 0 c in Ok (add_off w (KMake KDict) n c)).
Proof. reflexivity. Qed.
Lemma gen_EBin_n_x_y_eq : forall n x y c, gen  (EBin n x y) c =
  (
      let! c := gen x c in
      let! c := push_prev c in
      let! c := gen y c in
      Ok (add_op (KBin (BNum n)) c)).
Proof. reflexivity. Qed.
Lemma gen_EUn_UPlus_x_eq : forall x c, gen  (EUn UPlus x) c =
  ( gen x c).
Proof. reflexivity. Qed.
Lemma gen_EUn_UNot_x_eq : forall x c, gen  (EUn UNot x) c =
  ( let! c := gen x c in Ok (add_op (unop_code UNot) c)).
Proof. reflexivity. Qed.
Lemma gen_EUn_UMinus_x_eq : forall x c, gen  (EUn UMinus x) c =
  ( let! c := gen x c in Ok (add_op (unop_code UMinus) c)).
Proof. reflexivity. Qed.
Lemma gen_EUn_ULnot_x_eq : forall x c, gen  (EUn ULnot x) c =
  ( let! c := gen x c in Ok (add_op (unop_code ULnot) c)).
Proof. reflexivity. Qed.
Lemma gen_EIndex_x_i_eq : forall x i c, gen  (EIndex x i) c =
  (
      let! c := gen x c in
      let! c := push_prev c in
      let! c := gen i c in
      Ok (add_op (KBin BArray) c)).
Proof. reflexivity. Qed.
Lemma gen_ESlice_x_a_b_s_eq : forall x a b s c, gen  (ESlice x a b s) c =
  (
      let! c := gen x c in
      let! c := push_prev c in
      let! (fa, c) := (match a with
                       | ONone => Ok (0, c)
                       | OSome e => let! c := gen e c in Ok (1, c)
                       end) in
      let! (fb, c) := gen_opt b c in
      let! (fs, c) := gen_opt s c in
      let! c := push_prev c in
      Ok (add_u8 KSlice (fa * 1 + fb * 2 + fs * 4) c)).
Proof. reflexivity. Qed.
Lemma gen_ECall_f_a_eq : forall f a c, gen  (ECall f a) c =
  (
      let! c := gen f c in
      let! c := push_prev c in
      let! (n, c) := gen_args a 0 c in
      Ok (add_off w KCall n c)).
Proof. reflexivity. Qed.
Lemma gen_EAnd_x_y_eq : forall x y c, gen  (EAnd x y) c =
  (
      let! c := gen x c in
      let c := add_off w KBranchFalse 0 c in
      let off := c_prev c in
      let! c := gen y c in
      let! c := patch_branch w off (Z.of_nat (c_size c)) c in
      Ok (add_op KNop c)).
Proof. reflexivity. Qed.
Lemma gen_EOr_x_y_eq : forall x y c, gen  (EOr x y) c =
  (
      let! c := gen x c in
      let c := add_off w KBranchTrue 0 c in
      let off := c_prev c in
      let! c := gen y c in
      let! c := patch_branch w off (Z.of_nat (c_size c)) c in
      Ok (add_op KNop c)).
Proof. reflexivity. Qed.
Lemma gen_ECmp_x_l_eq : forall x l c, gen  (ECmp x l) c =
  (
      let! c := gen x c in
      let! (cmp_off, c) := gen_links l O c in
      if Nat.eqb cmp_off 0 then Ok c
      else
        let! c := patch_forward w cmp_off (c_size c) FCmp (Z.of_nat (c_size c)) c in
        Ok (add_op KNop c)).
Proof. reflexivity. Qed.
Lemma gen_args_ANil_eq : forall n c, gen_args  (ANil) n c =
  ( Ok (n, c)).
Proof. reflexivity. Qed.
Lemma gen_args_APos_e_r_eq : forall e r n c, gen_args  (APos e r) n c =
  (
      let! c := gen e c in
      if 256 <=? n then Err
      else let! c := push_prev c in gen_args r (n + 1) c).
Proof. reflexivity. Qed.
Lemma gen_args_ANamed_id_e_r_eq : forall id e r n c, gen_args  (ANamed id e r) n c =
  (
      let c := delete_prev (add_off w KId id c) in
      let c := add_number i8 (f_of_Z id) c in
      let! c := push_prev c in
      let! c := gen e c in
      let! c := push_prev c in
      gen_args r (u_of w (n + 256)) c).
Proof. reflexivity. Qed.
Lemma gen_dents_DNil_eq : forall n c, gen_dents  (DNil) n c =
  ( Ok (n, c)).
Proof. reflexivity. Qed.
Lemma gen_dents_DCons_k_v_r_eq : forall k v r n c, gen_dents  (DCons k v r) n c =
  (
      let! c := gen k c in
      let! c := push_prev c in
      let! c := gen v c in
      let! c := push_prev c in
      gen_dents r (u_of w (n + 2)) c).
Proof. reflexivity. Qed.
Lemma gen_opt_ONone_eq : forall c, gen_opt  (ONone) c =
  ( Ok (0, c)).
Proof. reflexivity. Qed.
Lemma gen_opt_OSome_e_eq : forall e c, gen_opt  (OSome e) c =
  ( let! c := push_prev c in let! c := gen e c in Ok (1, c)).
Proof. reflexivity. Qed.
Lemma gen_links_LLast_b_y_eq : forall b y cmp_off c, gen_links  (LLast b y) cmp_off c =
  (
      let! (cmp_off, c) := chain_start cmp_off c in
      let! c := push_prev c in
      let! c := gen y c in
      Ok (cmp_off, add_op (KBin b) c)).
Proof. reflexivity. Qed.
Lemma gen_links_LMore_b_y_l_eq : forall b y l cmp_off c, gen_links  (LMore b y l) cmp_off c =
  (
      let! (cmp_off, c) := chain_start cmp_off c in
      let! c := push_prev c in
      let! c := gen y c in
      gen_links l cmp_off (add_op (KBin b) c)).
Proof. reflexivity. Qed.
Lemma gen_stmt_SSkip_eq : forall d c, gen_stmt d (SSkip) c =
  ( Ok c).
Proof. reflexivity. Qed.
Lemma gen_stmt_SSeq_s_t_eq : forall d s t c, gen_stmt d (SSeq s t) c =
  ( let! c := gen_stmt d s c in gen_stmt d t c).
Proof. reflexivity. Qed.
Lemma gen_stmt_SLine_n_eq : forall d n c, gen_stmt d (SLine n) c =
  ( Ok (add_line w n c)).
Proof. reflexivity. Qed.
Lemma gen_stmt_SExpr_e_eq : forall d e c, gen_stmt d (SExpr e) c =
  ( gen e c).
Proof. reflexivity. Qed.
Lemma gen_stmt_SAssign_a_t_e_eq : forall d a t e c, gen_stmt d (SAssign a t e) c =
  (
      let! (id, c) := gen_target t false c in
      let! c := gen e c in
      Ok (add_off w (assign_op a) id c)).
Proof. reflexivity. Qed.
Lemma gen_stmt_SDel_t_eq : forall d t c, gen_stmt d (SDel t) c =
  ( let! (id, c) := gen_target t true c in Ok (add_off w KDel id c)).
Proof. reflexivity. Qed.
Lemma gen_stmt_SReturn_o_eq : forall d o c, gen_stmt d (SReturn o) c =
  (
      let! c := (match o with ONone => Ok (add_op KNull c) | OSome e => gen e c end) in
      Ok (add_op KReturn c)).
Proof. reflexivity. Qed.
Lemma gen_stmt_SBreak_eq : forall d c, gen_stmt d (SBreak) c =
  ( Ok (add_forward w FBreak c)).
Proof. reflexivity. Qed.
Lemma gen_stmt_SContinue_eq : forall d c, gen_stmt d (SContinue) c =
  ( Ok (add_forward w FContinue c)).
Proof. reflexivity. Qed.
Lemma gen_stmt_SGlobal_id_eq : forall d id c, gen_stmt d (SGlobal id) c =
  ( Ok (add_off w KGlobal id c)).
Proof. reflexivity. Qed.
Lemma gen_stmt_SAssert_e_eq : forall d e c, gen_stmt d (SAssert e) c =
  ( let! c := gen e c in Ok (add_op KAssert c)).
Proof. reflexivity. Qed.
Lemma gen_stmt_SIf_e_s_r_eq : forall d e s r c, gen_stmt d (SIf e s r) c =
  (
      let! c := gen e c in
      let c := add_off w KBranchFalse 0 c in
      let if_off := c_prev c in
      let! c := gen_stmt d s c in
      let! (else_off, c) := gen_rest d r c in
      let! c := patch_branch w if_off (Z.of_nat else_off) c in
      patch_forward w if_off (c_size c) FIf (Z.of_nat (c_size c)) c).
Proof. reflexivity. Qed.
Lemma gen_stmt_SWhile_e_s_els_eq : forall d e s els c, gen_stmt d (SWhile e s els) c =
  (
      let top := c_size c in
      let! c := gen e c in
      let c := add_off w KBranchFalse 0 c in
      let while_off := c_prev c in
      let! c := gen_stmt d s c in
      let c := add_off w KBranch 0 c in
      let loop_end := c_prev c in
      let else_off := c_size c in
      let! c := gen_stmt d els c in
      patch_loop top while_off loop_end else_off c).
Proof. reflexivity. Qed.
Lemma gen_stmt_SRange_id_a_s_els_eq : forall d id a s els c, gen_stmt d (SRange id a s els) c =
  (
      let! (n, c) := gen_args a 0 c in
      if 256 <=? n then Err
      else
        let c := add_in_range w id n d c in
        let for_off := c_prev c in
        let! c := gen_stmt (d + 1) s c in
        let c := add_off w KBranch 0 c in
        let loop_end := c_prev c in
        let else_off := c_size c in
        let! c := gen_stmt d els c in
        patch_loop for_off for_off loop_end else_off c).
Proof. reflexivity. Qed.
Lemma gen_stmt_SFor_id_e_s_els_eq : forall d id e s els c, gen_stmt d (SFor id e s els) c =
  (
      let! c := gen e c in
      let c := add_in_enum w i8 id d c in
      let for_off := c_prev c in
      let! c := gen_stmt (d + 1) s c in
      let c := add_off w KBranch 0 c in
      let loop_end := c_prev c in
      let else_off := c_size c in
      let! c := gen_stmt d els c in
      patch_loop for_off for_off loop_end else_off c).
Proof. reflexivity. Qed.
Lemma gen_rest_RNone_eq : forall d c, gen_rest d (RNone) c =
  ( Ok (c_size c, c)).
Proof. reflexivity. Qed.
Lemma gen_rest_RElse_s_eq : forall d s c, gen_rest d (RElse s) c =
  (
      let c := add_forward w FIf c in
      let off := c_size c in
      let! c := gen_stmt d s c in
      Ok (off, c)).
Proof. reflexivity. Qed.
Lemma gen_rest_RElif_line_e_s_r_eq : forall d line e s r c, gen_rest d (RElif line e s r) c =
  (
      let c := add_forward w FIf (add_line w line c) in
      let off := c_size c in
      let! c := gen e c in
      let c := add_off w KBranchFalse 0 c in
      let if_off := c_prev c in
      let! c := gen_stmt d s c in
      let! (else_off, c) := gen_rest d r c in
      let! c := patch_branch w if_off (Z.of_nat else_off) c in
      Ok (off, c)).
Proof. reflexivity. Qed.
End Eqs.
Global Hint Rewrite comp_ENum_f_eq comp_EStr_l_ls_eq comp_EId_id_eq comp_EList_a_eq comp_ETuple_a_eq comp_EDict_d_eq comp_EBin_n_x_y_eq comp_EUn_UPlus_x_eq comp_EUn_UNot_x_eq comp_EUn_UMinus_x_eq comp_EUn_ULnot_x_eq comp_EIndex_x_i_eq comp_ESlice_x_l_m_n_eq comp_ECall_f_a_eq comp_EAnd_x_y_eq comp_EOr_x_y_eq comp_ECmp_x_l_eq cargs_ANil_eq cargs_APos_e_r_eq cargs_ANamed_id_e_r_eq cdents_DNil_eq cdents_DCons_k_v_r_eq copt_ONone_eq copt_OSome_e_eq clinks_LLast_k_y_eq clinks_LMore_k_y_l_eq cstmt_SSkip_eq cstmt_SSeq_s_t_eq cstmt_SLine_n_eq cstmt_SExpr_e_eq cstmt_SAssign_a_TId_id_e_eq cstmt_SAssign_a_TElem_l_i_e_eq cstmt_SDel_TId_id_eq cstmt_SDel_TElem_l_i_eq cstmt_SReturn_ONone_eq cstmt_SReturn_OSome_e_eq cstmt_SBreak_eq cstmt_SContinue_eq cstmt_SGlobal_id_eq cstmt_SAssert_e_eq cstmt_SIf_e_s_r_eq cstmt_SWhile_e_s_els_eq cstmt_SRange_id_a_s_els_eq cstmt_SFor_id_e_s_els_eq crest_RNone_eq crest_RElse_s_eq crest_RElif_line_e_s_r_eq : lay.
Global Hint Rewrite gen_ENum_f_eq gen_EStr_l_ls_eq gen_EId_id_eq gen_EList_a_eq gen_ETuple_a_eq gen_EDict_d_eq gen_EBin_n_x_y_eq gen_EUn_UPlus_x_eq gen_EUn_UNot_x_eq gen_EUn_UMinus_x_eq gen_EUn_ULnot_x_eq gen_EIndex_x_i_eq gen_ESlice_x_a_b_s_eq gen_ECall_f_a_eq gen_EAnd_x_y_eq gen_EOr_x_y_eq gen_ECmp_x_l_eq gen_args_ANil_eq gen_args_APos_e_r_eq gen_args_ANamed_id_e_r_eq gen_dents_DNil_eq gen_dents_DCons_k_v_r_eq gen_opt_ONone_eq gen_opt_OSome_e_eq gen_links_LLast_b_y_eq gen_links_LMore_b_y_l_eq gen_stmt_SSkip_eq gen_stmt_SSeq_s_t_eq gen_stmt_SLine_n_eq gen_stmt_SExpr_e_eq gen_stmt_SAssign_a_t_e_eq gen_stmt_SDel_t_eq gen_stmt_SReturn_o_eq gen_stmt_SBreak_eq gen_stmt_SContinue_eq gen_stmt_SGlobal_id_eq gen_stmt_SAssert_e_eq gen_stmt_SIf_e_s_r_eq gen_stmt_SWhile_e_s_els_eq gen_stmt_SRange_id_a_s_els_eq gen_stmt_SFor_id_e_s_els_eq gen_rest_RNone_eq gen_rest_RElse_s_eq gen_rest_RElif_line_e_s_r_eq : gen.
