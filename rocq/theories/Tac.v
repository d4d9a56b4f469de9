(** Arithmetic automation shared by the proof files. *)
From Coq Require Export ZArith Lia Bool List ZifyBool ZifyNat ZifyN.
Export ListNotations.
Ltac Zify.zify_post_hook ::= Z.div_mod_to_equations.

Ltac inv H := inversion H; subst; clear H.
