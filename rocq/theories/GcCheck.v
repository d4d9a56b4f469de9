(** Checking that a given heap is well-formed, for the examples. *)
From Coq Require Import ZArith Bool List Lia.
From Verif Require Import Base FloatModel PolyModel CodeModel GcModel GcSpec GcHeapSpec.
Import ListNotations.
Local Open Scope Z_scope.

Definition mem_of (l : list Z) : mem := fun a => if a <? 0 then 0 else nth (Z.to_nat a) l 0.
Lemma mem_of_bytes l : forallb (fun b => (0 <=? b) && (b <? 256)) l = true -> bytes (mem_of l).
Proof.
  intros H a. unfold mem_of. destruct (a <? 0); [lia|]. rewrite forallb_forall in H.
  destruct (nth_in_or_default (Z.to_nat a) l 0) as [Hi|He]; [apply H, andb_prop in Hi; lia|lia].
Qed.
Definition ty_eqb (a b : ty) : bool :=
  match a, b with
  | YList, YList | YStr, YStr | YFunc, YFunc | YCode, YCode | YFrame, YFrame | YName, YName | YCompile, YCompile => true
  | YData x y, YData x' y' => (x =? x') && (y =? y')
  | _, _ => false
  end.
Lemma ty_eqb_eq a b : ty_eqb a b = true <-> a = b.
Proof.
  destruct a, b; cbn; try (split; intro H; discriminate); try tauto.
  rewrite andb_true_iff, !Z.eqb_eq. split; [intros [-> ->]; reflexivity|intro H; injection H; auto].
Qed.
Definition node_eqb (a b : node) : bool := ty_eqb (fst a) (fst b) && (snd a =? snd b).
Lemma node_eqb_eq a b : node_eqb a b = true <-> a = b.
Proof.
  unfold node_eqb. rewrite andb_true_iff, ty_eqb_eq, Z.eqb_eq. destruct a, b. cbn. split; [intros [-> ->]; reflexivity|intro H; injection H; auto].
Qed.
Definition inb (n : node) (L : list node) : bool := existsb (node_eqb n) L.
Lemma inb_in n L : inb n L = true <-> In n L.
Proof.
  unfold inb. rewrite existsb_exists. split.
  - intros (x & Hx & He). apply node_eqb_eq in He as ->. exact Hx.
  - intro H. exists n. split; [exact H|apply node_eqb_eq; reflexivity].
Qed.

Section Check.
Variable w : width.
Variables POOL calloc csize : Z.
Notation k := (Z.of_nat (obytes w)).
Notation none := (OFFSET_NONE w).
Notation geto := (get (obytes w)).
Notation osize := (osize w POOL calloc).
Notation slots := (slots w csize).

Definition opt_in (o : option node) (L : list node) : bool := match o with Some n => inb n L | None => true end.
Definition wordb (v : Z) : bool :=
  (0 <=? v) && (v <? 2 ^ 32) && match means w SPoly v with Some _ => snek_poly_to_offset v <? 2 ^ wbits w | None => true end.
Definition rangeb (s : skind) (v : Z) : bool := match s with SPoly => wordb v | SOff _ => (0 <=? v) && (v <? 2 ^ wbits w) end.
Lemma wordb_word v : wordb v = true -> word w v.
Proof.
  unfold wordb, word. rewrite !andb_true_iff. intros [[H1 H2] H3]. split; [lia|]. intro Hn. destruct (means w SPoly v); [lia|contradiction].
Qed.
Definition validb (top : Z) (m : mem) (n : node) : bool :=
  match osize m n with
  | Some s => (0 <=? snd n) && (snd n mod 4 =? 0) && (0 <? s) && (snd n + s <=? top) &&
              forallb (fun sl => (0 <=? fst sl) && (fst sl + Z.of_nat (slen w (snd sl)) <=? s)) (slots m n)
  | None => false
  end.
Definition apartb (m : mem) (n n' : node) : bool :=
  match osize m n, osize m n' with
  | Some s, Some s' => (snd n + s <=? snd n') || (snd n' + s' <=? snd n)
  | _, _ => true
  end.
Fixpoint names_b (m : mem) (o : Z) (p : list Z) : bool :=
  match p with [] => o =? none | x :: p => (o =? x) && negb (x =? none) && negb (existsb (Z.eqb x) p) && names_b m (geto m x) p end.
Lemma names_b_list m p : forall o, names_b m o p = true -> names_list w m o p /\ NoDup p.
Proof.
  induction p as [|x p IH]; cbn; intros o H; [split; [lia|constructor]|]. rewrite !andb_true_iff in H. destruct H as [[[H1 H2] H3] H4]. apply IH in H4 as [H4 H5].
  repeat split; auto; [lia|rewrite negb_true_iff, Z.eqb_neq in H2; exact H2|]. constructor; [|exact H5]. intro Hin. rewrite negb_true_iff in H3.
  rewrite <- not_true_iff_false in H3. apply H3. apply existsb_exists. exists x. split; [exact Hin|apply Z.eqb_refl].
Qed.
Definition target_data (o : option node) : bool := match o with Some (YData _ _, _) => true | _ => false end.
Definition same_target (a b : option node) : bool := match a, b with Some x, Some y => node_eqb x y | _, _ => false end.
Definition check (R : roots) (m : mem) (top last : Z) (L : list node) (p : list Z) : bool :=
  (csize <=? calloc) && (top <=? POOL) && (POOL <=? none) && (POOL <=? 2 ^ 23) &&
  forallb (fun r => rangeb (fst r) (snd r) && opt_in (means w (fst r) (snd r)) L) (root_refs R) &&
  forallb (fun n => forallb (fun s => (match snd s with SPoly => wordb (said w m n s) | _ => true end) && opt_in (target w m n s) L) (slots m n)) L &&
  forallb (validb top m) L &&
  forallb (fun n => forallb (fun n' => node_eqb n n' || apartb m n n') L) L &&
  forallb (fun n => match fst n with YList => (geto m (snd n + k) =? 0) || negb (geto m (snd n + 3 * k) =? none) | _ => true end) L &&
  forallb (fun n => forallb (fun n' => node_eqb n n' || forallb (fun s => forallb (fun s' =>
     negb (target_data (target w m n s) && same_target (target w m n s) (target w m n' s'))) (slots m n')) (slots m n)) L) L &&
  names_b m (r_names R) p && (0 <=? last) && (last <=? top) &&
  forallb (fun n => match osize m n with Some s => (snd n + s <=? last) || (last <=? snd n) | None => true end) L.

Lemma check_live R m top last L p : check R m top last L p = true -> forall n, live w csize R m n -> In n L.
Proof.
  unfold check. rewrite !andb_true_iff, !forallb_forall. intros (((((((((((((_ & _) & _) & _) & Hr) & Hs) & _) & _) & _) & _) & _) & _) & _) & _) n H.
  induction H as [s v n Hin He|n s n' H IH Hin He].
  - specialize (Hr _ Hin). cbn [fst snd] in Hr. rewrite He in Hr. apply andb_prop in Hr as [_ Hr]. apply inb_in, Hr.
  - specialize (Hs n IH). rewrite forallb_forall in Hs. specialize (Hs s Hin). rewrite He in Hs. apply andb_prop in Hs as [_ Hs]. apply inb_in, Hs.
Qed.
Lemma check_wf R m top last L p : bytes m -> check R m top last L p = true -> wf w POOL calloc csize R m top last.
Proof.
  intros Hb H. pose proof (check_live _ _ _ _ _ _ H) as Hl. unfold check in H. rewrite !andb_true_iff, !forallb_forall in H.
  destruct H as (((((((((((((H1 & H2) & H3) & H4) & Hr) & Hs) & Hv) & Ha) & Hd) & Ho) & Hn) & Hl1) & Hl2) & Hla).
  constructor; auto.
  - lia.
  - lia.
  - intros s v Hin. specialize (Hr _ Hin). apply andb_prop in Hr as [Hr _]. cbn [fst snd] in Hr. destruct s; cbn [rangeb] in Hr; [apply wordb_word, Hr|]. unfold offset. lia.
  - intros n s H Hi Hp. specialize (Hs n (Hl n H)). rewrite forallb_forall in Hs. specialize (Hs s Hi). apply andb_prop in Hs as [Hs _]. rewrite Hp in Hs. apply wordb_word, Hs.
  - intros n H. specialize (Hv n (Hl n H)). unfold validb in Hv. destruct (osize m n) as [z|] eqn:Ez; [|discriminate]. rewrite !andb_true_iff, forallb_forall in Hv. destruct Hv as ((((V1 & V2) & V3) & V4) & V5).
    constructor; [lia|lia|exists z; repeat split; try assumption; lia|]. intros s sl E Hi. rewrite Ez in E. injection E as <-. specialize (V5 sl Hi). lia.
  - intros n n' H H'. specialize (Ha n (Hl n H)). rewrite forallb_forall in Ha. specialize (Ha n' (Hl n' H')). apply orb_prop in Ha as [Ha|Ha]; [left; apply node_eqb_eq, Ha|].
    right. intros s s' E E'. unfold apartb in Ha. rewrite E, E' in Ha. lia.
  - intros o H Hx. specialize (Hd _ (Hl _ H)). cbn [fst snd] in Hd. apply orb_prop in Hd as [Hd|Hd]; [lia|]. rewrite negb_true_iff, Z.eqb_neq in Hd. exact Hd.
  - intros n n' s s' d H H' Hi Hi' E E' (a & b & Hf). specialize (Ho n (Hl n H)). rewrite forallb_forall in Ho. specialize (Ho n' (Hl n' H')). apply orb_prop in Ho as [Ho|Ho]; [apply node_eqb_eq, Ho|].
    exfalso. rewrite forallb_forall in Ho. specialize (Ho s Hi). rewrite forallb_forall in Ho. specialize (Ho s' Hi'). rewrite E, E' in Ho. destruct d as [t o]. cbn in Hf. subst t.
    cbn [target_data same_target] in Ho. rewrite (proj2 (node_eqb_eq _ _) eq_refl) in Ho. discriminate.
  - exists p. apply names_b_list, Hn.
  - split; [lia|]. intros n s H E. specialize (Hla n (Hl n H)). rewrite E in Hla. lia.
Qed.
End Check.
