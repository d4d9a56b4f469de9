(** C91: reading goes on after a syntax error at the prompt. *)
From Coq Require Import ZArith Bool List Ascii String Lia.
From Verif Require Import Base LexModel LexSpec RecModel RecSpec RecProofs4.
Import ListNotations.
Local Open Scope Z_scope.

(** For the examples: the text typed at the prompt (~ for a line end), and the
    lexer after the first tokens of it, the last being the offending one. *)
Definition typed (s : string) : list Z := map (fun c => if c =? ch "~" then NL else c) (chars s).
Definition prompt (abort : bool) : lexcfg := {| lc_width := W32; lc_interactive := true; lc_abort := abort; lc_alloc := true |}.
Fixpoint reads (n : nat) (s : lex) : option lex :=
  match n with
  | O => Some s
  | S n => match snek_lex (prompt false) 60 s with
           | Some (_, s) => reads n s
           | None => None
           end
  end.
Definition error_at (n : nat) (t : string) : lex :=
  match reads n (lex_start (typed t) 1) with Some s => s | None => lex_start [] 0 end.
Ltac state := vm_compute; auto; try lia; try discriminate.
Lemma piece_ok : forall s, forallb (fun c => (0 <? c) && (c <? 256) && negb (c =? NL) && negb (c =? ch "#") && negb (c =? 92)) (typed s) = true ->
  (List.length (typed s) <= 250)%nat -> plain_piece (typed s).
Proof.
  intros s H L. rewrite forallb_forall in H.
  assert (K : forall c, In c (typed s) -> 0 < c < 256 /\ c <> NL /\ c <> ch "#" /\ c <> 92).
  { intros c Hc. specialize (H c Hc). rewrite !andb_true_iff, !negb_true_iff, !Z.ltb_lt, !Z.eqb_neq in H. intuition. }
  split; [intros c Hc; specialize (K c Hc); intuition|]. split; [|exact L].
  intros a b E. exfalso. assert (Hi : In 92 (typed s)) by (rewrite E; apply in_or_app; right; left; reflexivity). specialize (K 92 Hi). intuition.
Qed.

(** ** C91: a command with a syntax error is skipped, and no other *)
(** An error inside a line outside of blocks: exactly the rest of the line is
    skipped.  Missing: lines with a comment, for which the claim is false (below),
    an escape broken off by the line's end, and more than 250 characters. *)
Theorem C91_line_partial : forall C, lc_abort C = true -> forall s p rest, plain_piece p -> inside s p (NL :: rest) -> lx_current s = 0 ->
  goes_on C s 1 rest.
Proof. exact line_goes_on. Qed.
Print Assumptions C91_line_partial.
Example C91_line_applies : let s := error_at 3 "x = = (1~print(x)~" in
  plain_piece (typed " (1") /\ inside s (typed " (1") (NL :: typed "print(x)~") /\ lx_current s = 0 /\ goes_on (prompt true) s 1 (typed "print(x)~").
Proof.
  cbv zeta. set (s := error_at 3 "x = = (1~print(x)~").
  assert (P : plain_piece (typed " (1")) by (apply piece_ok; state).
  assert (H : inside s (typed " (1") (NL :: typed "print(x)~")) by (split; state).
  assert (Z : lx_current s = 0) by reflexivity. split; [exact P|]. split; [exact H|]. split; [exact Z|]. eapply C91_line_partial; eauto.
Qed.

(** False with a comment: reading goes on in the middle of it, after its first
    character, so that the rest of a comment is run as a command. *)
Theorem C91_comment_refuted : forall C, lc_abort C = true -> forall s p c rest, plain_piece p -> Forall (fun c => c <> 34 /\ c <> 39) p -> c <> NL ->
  inside s p (ch "#" :: c :: rest) -> lx_current s = 0 -> goes_on C s 0 rest.
Proof. exact comment_goes_on. Qed.
Print Assumptions C91_comment_refuted.
Example C91_comment_applies : let s := error_at 3 "x = = 1 # exit(1)~" in
  plain_piece (typed " 1 ") /\ inside s (typed " 1 ") (ch "#" :: ch " " :: typed "exit(1)~") /\ lx_current s = 0 /\ goes_on (prompt true) s 0 (typed "exit(1)~").
Proof.
  cbv zeta. set (s := error_at 3 "x = = 1 # exit(1)~").
  assert (P : plain_piece (typed " 1 ")) by (apply piece_ok; state).
  assert (H : inside s (typed " 1 ") (ch "#" :: ch " " :: typed "exit(1)~")) by (split; state).
  assert (Z : lx_current s = 0) by reflexivity. split; [exact P|]. split; [exact H|]. split; [exact Z|].
  refine (C91_comment_refuted (prompt true) eq_refl _ (typed " 1 ") _ _ P _ _ H Z); [repeat constructor; discriminate | discriminate].
Qed.

(** False if the error is found at the end of a line: the whole next line is
    skipped (with the indented lines before it), although nothing is wrong with
    it. *)
Theorem C91_end_refuted : forall C, lc_abort C = true -> lc_interactive C = true -> forall s ls q rest,
  Forall (fun l => plain_line (fst l) (snd l) /\ (0 < fst l)%nat) ls -> plain_line 0 q ->
  at_end s (lines ls ++ a_line 0 q ++ rest) -> goes_on C s (1 + Z.of_nat (List.length ls)) rest.
Proof. exact end_goes_on. Qed.
Print Assumptions C91_end_refuted.
Example C91_end_applies : let s := error_at 3 "x =~y = 2~print(y)~" in
  plain_line 0 (typed "y = 2") /\ at_end s (lines [] ++ a_line 0 (typed "y = 2") ++ typed "print(y)~") /\ goes_on (prompt true) s 1 (typed "print(y)~").
Proof.
  cbv zeta. set (s := error_at 3 "x =~y = 2~print(y)~").
  assert (P : plain_line 0 (typed "y = 2")) by (split; [apply piece_ok; state | split; [lia | discriminate]]).
  assert (H : at_end s (lines [] ++ a_line 0 (typed "y = 2") ++ typed "print(y)~")) by (split; state).
  split; [exact P|]. split; [exact H|]. exact (C91_end_refuted (prompt true) eq_refl eq_refl s [] (typed "y = 2") _ (Forall_nil _) P H).
Qed.

(** An error inside a line of a block: the block is skipped up to and with the
    blank line that ends it.  Missing: as for a single line. *)
Theorem C91_block_partial : forall C, lc_abort C = true -> lc_interactive C = true -> forall s p ls rest, plain_piece p ->
  Forall (fun l => plain_line (fst l) (snd l) /\ (0 < fst l)%nat) ls ->
  inside s p (NL :: lines ls ++ NL :: rest) -> lx_current s <> 0 -> goes_on C s (2 + Z.of_nat (List.length ls)) rest.
Proof.
  intros C A B s p ls rest P L H N. refine (block_goes_on C A B s p ls [] rest P L _ H N).
  split; [| split; [lia | discriminate]]. split; [intros c []|]. split; [intros [|] b E; discriminate | cbn; lia].
Qed.
Print Assumptions C91_block_partial.
(** False if another command ends the block: it is skipped too. *)
Theorem C91_block_refuted : forall C, lc_abort C = true -> lc_interactive C = true -> forall s p ls q rest, plain_piece p ->
  Forall (fun l => plain_line (fst l) (snd l) /\ (0 < fst l)%nat) ls -> plain_line 0 q -> q <> [] ->
  inside s p (NL :: lines ls ++ a_line 0 q ++ rest) -> lx_current s <> 0 -> goes_on C s (2 + Z.of_nat (List.length ls)) rest.
Proof. intros C A B s p ls q rest P L Q _ H N. exact (block_goes_on C A B s p ls q rest P L Q H N). Qed.
Print Assumptions C91_block_refuted.
Example C91_block_applies : let s := error_at 8 "if x:~  y = = 1~  z = 2~~print(y)~" in
  plain_piece (typed " 1") /\ inside s (typed " 1") (NL :: lines [(2%nat, typed "z = 2")] ++ NL :: typed "print(y)~") /\ lx_current s <> 0 /\
  goes_on (prompt true) s 3 (typed "print(y)~").
Proof.
  cbv zeta. set (s := error_at 8 "if x:~  y = = 1~  z = 2~~print(y)~").
  assert (P : plain_piece (typed " 1")) by (apply piece_ok; state).
  assert (H : inside s (typed " 1") (NL :: lines [(2%nat, typed "z = 2")] ++ NL :: typed "print(y)~")) by (split; state).
  assert (Z : lx_current s <> 0) by (vm_compute; discriminate). split; [exact P|]. split; [exact H|]. split; [exact Z|].
  refine (C91_block_partial (prompt true) eq_refl eq_refl s _ [(2%nat, typed "z = 2")] _ P _ H Z).
  constructor; [|constructor]. split; [|cbn; lia]. split; [apply piece_ok; state | split; [cbn; lia | discriminate]].
Qed.
Example C91_block_lost : let s := error_at 8 "if x:~  y = = 1~z = 2~print(y)~" in
  inside s (typed " 1") (NL :: lines [] ++ a_line 0 (typed "z = 2") ++ typed "print(y)~") /\ lx_current s <> 0 /\
  goes_on (prompt true) s 2 (typed "print(y)~").
Proof.
  cbv zeta. set (s := error_at 8 "if x:~  y = = 1~z = 2~print(y)~").
  assert (P : plain_piece (typed " 1")) by (apply piece_ok; state).
  assert (H : inside s (typed " 1") (NL :: lines [] ++ a_line 0 (typed "z = 2") ++ typed "print(y)~")) by (split; state).
  assert (Z : lx_current s <> 0) by (vm_compute; discriminate). split; [exact H|]. split; [exact Z|].
  refine (C91_block_refuted (prompt true) eq_refl eq_refl s _ [] (typed "z = 2") _ P (Forall_nil _) _ _ H Z); [|discriminate].
  split; [apply piece_ok; state | split; [lia | discriminate]].
Qed.
