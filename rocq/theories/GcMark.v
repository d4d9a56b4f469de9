(** Marking: every object that can be reached is found, and no other. *)
From Coq Require Import ZArith Bool List Lia Sorting.Sorted.
From Verif Require Import Base FloatModel PolyModel PolyProofs CodeModel GcModel GcSpec GcProofs GcChunks.
Import ListNotations.
Local Open Scope Z_scope.

Fixpoint iter {A} (f : A -> gc -> option gc) (l : list A) (g : gc) : option gc :=
  match l with [] => Some g | a :: l => let? g := f a g in iter f l g end.
Lemma each_iter f n : forall a step g, each f n a step g = iter f (evenly n a step) g.
Proof.
  induction n as [|n IH]; intros a step g; [reflexivity|]. cbn [each]. unfold evenly. cbn [seq map iter].
  replace (a + step * Z.of_nat 0) with a by lia. destruct (f a g) as [g'|]; [|reflexivity]. rewrite IH. unfold evenly.
  rewrite <- seq_shift, map_map. f_equal. apply map_ext. intro i. lia.
Qed.
Lemma iter_map {A B} (f : B -> gc -> option gc) (h : A -> B) l : forall g, iter f (map h l) g = iter (fun a => f (h a)) l g.
Proof. induction l as [|a l IH]; intro g; [reflexivity|]. cbn. destruct (f (h a) g); [apply IH|reflexivity]. Qed.
Lemma iter_app {A} (f : A -> gc -> option gc) l l' : forall g, iter f (l ++ l') g = (let? g := iter f l g in iter f l' g).
Proof. induction l as [|a l IH]; intro g; [reflexivity|]. cbn. destruct (f a g); [apply IH|reflexivity]. Qed.
Lemma iter_ext {A} (f f' : A -> gc -> option gc) l : (forall a g, In a l -> f a g = f' a g) -> forall g, iter f l g = iter f' l g.
Proof.
  induction l as [|a l IH]; intros H g; [reflexivity|]. cbn. rewrite H by (left; reflexivity).
  destruct (f' a g); [apply IH; intros; apply H; right; assumption|reflexivity].
Qed.
Lemma code_iter w (P : gc -> Prop) f m0 c c0 fuel : forall ip size g,
  (forall g, P g -> forall x, ip <= x < size -> (forall a, In a (strings_in w fuel m0 c0 ip size) -> ~ (a <= x < a + Z.of_nat (obytes w))) ->
     g_m g (c + x) = m0 (c0 + x)) ->
  (forall a g g', In a (strings_in w fuel m0 c0 ip size) -> P g -> f (c + a) g = Some g' -> P g') ->
  P g -> size - ip <= Z.of_nat fuel -> code_each w f fuel c ip size g = iter (fun a => f (c + a)) (strings_in w fuel m0 c0 ip size) g.
Proof.
  induction fuel as [|fuel IH]; intros ip size g Hm Hf Hg Hs; cbn [code_each strings_in]; destruct (Z.ltb_spec ip size) as [Hlt|]; try reflexivity; [lia|].
  assert (H0 : g_m g (c + ip) = m0 (c0 + ip)).
  { apply Hm; [exact Hg|lia|]. intros a Ha. apply strings_above in Ha. lia. }
  rewrite H0. cbn [strings_in] in Hm, Hf. destruct (Z.ltb_spec ip size); [|lia]. set (op := byte_op (m0 (c0 + ip))) in *.
  assert (Hnext : forall g', P g' -> code_each w f fuel c (ip + 1 + Z.of_nat (operand_size w op)) size g' =
    iter (fun a => f (c + a)) (strings_in w fuel m0 c0 (ip + 1 + Z.of_nat (operand_size w op)) size) g').
  { intros g' Hg'. apply IH; [| |exact Hg'|lia].
    - intros g1 Hg1 x Hx Hn. apply Hm; [exact Hg1|lia|]. intros a Ha. apply in_app_or in Ha as [Ha|Ha]; [|exact (Hn a Ha)].
      destruct (Z.eqb_spec op (op_code KString)) as [He|]; [|contradiction]. destruct Ha as [<-|[]]. rewrite He, string_operand in Hx. lia.
    - intros a g1 g2 Ha. apply Hf. apply in_or_app. right. exact Ha. }
  destruct (op =? op_code KString) eqn:He; cbn [app iter].
  - replace (c + ip + 1) with (c + (ip + 1)) by lia. destruct (f (c + (ip + 1)) g) as [g'|] eqn:Hfa; [|reflexivity].
    apply Hnext. apply (Hf (ip + 1) g g'); [left; reflexivity|exact Hg|exact Hfa].
  - apply Hnext. exact Hg.
Qed.

Lemma holds_iff N top low B B' cs high : (forall c, B c <-> B' c) -> holds N top low B cs high -> holds N top low B' cs high.
Proof.
  intros H [Ho Hf Ha Hl Hm Hfl]. constructor; auto.
  - intros c Hc. destruct (Hf c Hc). split; [apply H|]; assumption.
  - intros c Hc. apply Ha, H, Hc.
Qed.

Section Heap.
Context {w : width} {POOL calloc csize : Z} {R : roots} {m0 : mem} {top0 last0 : Z}.
Notation k := (Z.of_nat (obytes w)).
Notation none := (OFFSET_NONE w).
Notation geto := (get (obytes w)).
Notation osize := (osize w POOL calloc).
Notation slots := (slots w csize).
Notation live := (live w csize R m0).
Notation said := (said w).
Notation means := (means w).
Notation target := (target w).
Hypothesis Hwf : wf w POOL calloc csize R m0 top0 last0.

Definition sz (n : node) : Z := match osize m0 n with Some s => s | None => 0 end.

Lemma none_word : none = 2 ^ wbits w - 4 /\ none mod 4 = 0 /\ 0 < none.
Proof. destruct w; repeat split; reflexivity. Qed.
Lemma u_small x : 0 <= x < 2 ^ wbits w -> u_of w x = x.
Proof. intro H. unfold u_of, wrapu. apply Z.mod_small. exact H. Qed.
Lemma pool_facts : top0 <= POOL /\ POOL <= none /\ POOL <= 2 ^ 23.
Proof. exact (wf_pool _ _ _ _ _ _ _ _ Hwf). Qed.

Lemma live_facts n : live n -> osize m0 n = Some (sz n) /\ 0 < sz n /\ sz n mod 4 = 0 /\ 0 <= snd n /\ snd n mod 4 = 0 /\ snd n + sz n <= top0.
Proof.
  intro H. destruct (wf_valid _ _ _ _ _ _ _ _ Hwf n H) as [Hl Ha (s & Hs & Hp & Ht) _]. unfold sz. rewrite Hs. repeat split; auto.
  unfold GcSpec.osize in Hs. destruct (mem_size _ _ _ _ _ _); [|discriminate]. injection Hs as <-. apply Z.mod_mul. lia.
Qed.
Lemma live_slot n s : live n -> In s (slots m0 n) -> 0 <= fst s /\ fst s + Z.of_nat (slen w (snd s)) <= sz n.
Proof.
  intros H Hs. destruct (live_facts n H) as [He _]. exact (v_inside _ _ _ _ _ _ _ (wf_valid _ _ _ _ _ _ _ _ Hwf n H) _ s He Hs).
Qed.
Lemma live_apart n n' : live n -> live n' -> n = n' \/ snd n + sz n <= snd n' \/ snd n' + sz n' <= snd n.
Proof.
  intros H H'. destruct (live_facts n H) as [He _]. destruct (live_facts n' H') as [He' _].
  destruct (wf_apart _ _ _ _ _ _ _ _ Hwf n n' H H') as [|Ha]; [left; assumption|right]. apply (Ha _ _ He He').
Qed.
Lemma live_at n n' i i' : live n -> live n' -> 0 <= i < sz n -> 0 <= i' < sz n' -> snd n + i = snd n' + i' -> n = n' /\ i = i'.
Proof.
  intros H H' Hi Hi' He. destruct (live_apart n n' H H') as [<-|]; [split; [reflexivity|lia]|lia].
Qed.
Lemma live_index n n' : live n -> live n' -> snd n / 4 = snd n' / 4 -> n = n'.
Proof.
  intros H H' He. pose proof (live_facts n H) as (_ & Hp & _ & _ & Ha & _). pose proof (live_facts n' H') as (_ & Hp' & _ & _ & Ha' & _).
  apply (live_at n n' 0 0 H H'); lia.
Qed.
Lemma live_mem_size n : live n -> exists s, mem_size w POOL calloc m0 (fst n) (snd n) = Some s /\ 0 <= s /\ sz n = (s + 3) / 4 * 4.
Proof.
  intro H. destruct (live_facts n H) as (He & Hp & _). unfold GcSpec.osize in He.
  destruct (mem_size w POOL calloc m0 (fst n) (snd n)) as [s|]; [|discriminate]. exists s. apply some_eq in He. split; [reflexivity|]. split; [|symmetry; exact He].
  rewrite <- He in Hp. destruct (Z_lt_le_dec s 0); [|assumption].
  pose proof (round_ge s). pose proof (Z.mod_mul ((s + 3) / 4) 4 ltac:(lia)). assert ((s + 3) / 4 <= 0) by (apply Z.lt_succ_r, Z.div_lt_upper_bound; lia). lia.
Qed.
Lemma round_u s : 0 <= s -> (s + 3) / 4 * 4 <= POOL -> size_round w s = (s + 3) / 4 * 4.
Proof.
  intros H Hp. destruct pool_facts as (_ & Hn & _). destruct none_word as (Hn' & _). pose proof (round_ge s). unfold size_round.
  rewrite (u_small s) by lia. apply u_small. lia.
Qed.
Lemma live_none n : live n -> snd n <> none.
Proof. intro H. destruct (live_facts n H) as (_ & Hp & _ & _ & _ & Ht). destruct pool_facts. lia. Qed.
Lemma live_range n : live n -> 0 <= snd n < POOL.
Proof. intro H. destruct (live_facts n H) as (_ & Hp & _ & Hl & _ & Ht). destruct pool_facts. lia. Qed.
Lemma live_target n s n' : live n -> In s (slots m0 n) -> target m0 n s = Some n' -> live n'.
Proof. intros H Hs Ht. exact (live_step _ _ _ _ n s n' H Hs Ht). Qed.

Definition visited (n : node) : Prop := match fst n with YData _ _ => False | _ => True end.
Lemma poly_visited v n : means SPoly v = Some n -> visited n.
Proof. unfold GcSpec.means, word_ref, visited. destruct (snek_poly_type v); intro H; try discriminate; injection H as <-; exact Logic.I. Qed.

(** ** The names *)
Lemma name_slot n s : In s (slots m0 n) -> snd s = SOff YName -> fst n = YName /\ s = (0, SOff YName).
Proof.
  intros Hin Hs. unfold GcSpec.slots in Hin. destruct n as [t o]. cbn [fst snd] in *. destruct t; cbn [fst snd] in *.
  - destruct (_ =? 0); [contradiction|]. destruct Hin as [<-|[]]. discriminate.
  - contradiction.
  - destruct Hin as [<-|[]]. discriminate.
  - apply in_map_iff in Hin as (a & <- & _). discriminate.
  - apply in_app_or in Hin as [Hin|[<-|[<-|[]]]]; try discriminate. apply in_map_iff in Hin as (a & <- & _). discriminate.
  - destruct Hin as [<-|[]]. auto.
  - apply in_map_iff in Hin as (a & <- & _). discriminate.
  - apply in_map_iff in Hin as (a & <- & _). discriminate.
Qed.
Lemma names_live p : forall o, names_list w m0 o p -> (o = none \/ live (YName, o)) -> forall x, In x p -> live (YName, x).
Proof.
  induction p as [|y p IH]; intros o Hp Ho x Hx; [contradiction|]. destruct Hp as (-> & Hy & Hp).
  destruct Ho as [Ho|Ho]; [congruence|]. destruct Hx as [<-|Hx]; [exact Ho|]. apply (IH _ Hp); [|exact Hx].
  destruct (Z.eq_dec (geto m0 y) none) as [He|He]; [left; exact He|right].
  apply (live_step _ _ _ _ (YName, y) (0, SOff YName)); [exact Ho|left; reflexivity|].
  unfold GcSpec.target, GcSpec.said, GcSpec.means. cbn [fst snd slen]. rewrite Z.add_0_r. destruct (Z.eqb_spec (geto m0 y) none); [contradiction|reflexivity].
Qed.
Lemma nodup_bound p : NoDup p -> (forall x, In x p -> 0 <= x < POOL) -> (length p <= Z.to_nat POOL)%nat.
Proof.
  intros Hd Hx. rewrite <- (map_length Z.to_nat). rewrite <- (seq_length (Z.to_nat POOL) 0). apply NoDup_incl_length.
  - clear -Hd Hx. induction Hd as [|a l Ha Hd IH]; cbn; constructor.
    + rewrite in_map_iff. intros (b & Hb & Hin). pose proof (Hx a ltac:(left; reflexivity)). pose proof (Hx b ltac:(right; exact Hin)).
      apply Ha. replace a with b by lia. exact Hin.
    + apply IH. intros x H. apply Hx. right. exact H.
  - intros i Hi. apply in_map_iff in Hi as (x & <- & Hin). apply in_seq. specialize (Hx x Hin). lia.
Qed.
Lemma name_chain n : live n -> fst n = YName -> exists p, names_list w m0 (snd n) p /\ NoDup p /\ (length p <= Z.to_nat POOL)%nat /\ (forall x, In x p -> live (YName, x)).
Proof.
  intro H. destruct (wf_names _ _ _ _ _ _ _ _ Hwf) as (p & Hp & Hd).
  induction H as [s v n Hin Hm|n s n' H IH Hs Ht]; intro Hn.
  - assert (Hv : v = r_names R /\ snd n = v).
    { unfold GcSpec.means in Hm. destruct s as [|t].
      - unfold word_ref in Hm. destruct (snek_poly_type v); try discriminate; injection Hm as <-; discriminate.
      - destruct (Z.eqb_spec v none); [discriminate|]. injection Hm as <-. cbn [fst snd] in *. subst t. split; [|reflexivity].
        unfold root_refs, pointers in Hin. apply in_app_or in Hin as [Hin|Hin]; [apply in_map_iff in Hin as (? & He & _); discriminate|].
        cbn in Hin. repeat (destruct Hin as [Hin|Hin]; [congruence|]). contradiction. }
    destruct Hv as [Hv Hsn].
    assert (Hlive : live n) by exact (live_root _ _ _ _ s v n Hin Hm).
    rewrite Hsn, Hv. exists p. assert (Hall : forall x, In x p -> live (YName, x)).
    { apply (names_live p _ Hp). right. destruct n as [t o]. cbn [fst snd] in *. subst. exact Hlive. }
    repeat split; auto. apply nodup_bound; [exact Hd|]. intros x Hx. apply (live_range (YName, x)), Hall, Hx.
  - assert (Hss : snd s = SOff YName).
    { unfold GcSpec.target, GcSpec.means in Ht. destruct (snd s) as [|t].
      - unfold word_ref in Ht. destruct (snek_poly_type _); try discriminate; injection Ht as <-; discriminate.
      - destruct (_ =? none); [discriminate|]. injection Ht as <-. cbn in Hn. congruence. }
    destruct (name_slot n s Hs Hss) as [Hfn ->]. destruct (IH Hfn) as (q & Hq & Hqd & Hql & Hqa).
    destruct q as [|x q]; cbn [names_list] in Hq; [exfalso; exact (live_none n H Hq)|]. destruct Hq as (He & _ & Hq).
    exists q. unfold GcSpec.target, GcSpec.said, GcSpec.means in Ht. cbn [fst snd slen] in Ht. rewrite Z.add_0_r, He in Ht.
    destruct (_ =? none); [discriminate|]. injection Ht as <-. cbn [snd]. inversion Hqd; subst. repeat split; auto.
    + cbn in Hql. lia.
    + intros y Hy. apply Hqa. right. exact Hy.
Qed.

(** ** Memory while marking: only the notes change *)
Definition mark_mem (m : mem) : Prop :=
  bytes m /\
  (forall n i, live n -> 0 <= i < sz n -> ~ in_note w n i -> m (snd n + i) = m0 (snd n + i)) /\
  (forall o, live (YList, o) -> geto m (o + 2 * k) mod 4 = geto m0 (o + 2 * k) mod 4).

Lemma slot_note n s i : In s (slots m0 n) -> fst s <= i < fst s + Z.of_nat (slen w (snd s)) -> ~ in_note w n i.
Proof.
  intros Hs Hi [Ht Hn]. destruct n as [t o]. cbn [fst] in Ht. subst t. unfold GcSpec.slots in Hs. cbn [fst snd] in Hs.
  destruct (_ =? 0); [contradiction|]. destruct Hs as [<-|[]]. cbn [fst snd slen] in Hi. lia.
Qed.
Lemma mark_mem_obj m n : mark_mem m -> live n -> osize m n = Some (sz n) /\ slots m n = slots m0 n /\
  (forall s, In s (slots m0 n) -> said m n s = said m0 n s).
Proof.
  intros (Hb & Hm & Hk) H. destruct (live_facts n H) as (He & Hp & _ & Hl & _ & Ht). destruct pool_facts as (Hpool & _). destruct n as [t o].
  destruct (local w POOL calloc csize m0 m t o o (sz (t, o)) (wf_compile _ _ _ _ _ _ _ _ Hwf) (wf_bytes _ _ _ _ _ _ _ _ Hwf) He) as [H1 H2].
  - cbn [snd] in *. lia.
  - intros i Hi [_ Hpl]. apply (Hm (t, o) i H Hi Hpl).
  - split; [exact H1|]. split; [exact H2|]. intros s Hs. unfold GcSpec.said. apply get_ext. intros i Hi.
    destruct (live_slot _ s H Hs) as [H3 H4]. rewrite <- !Z.add_assoc. apply Hm; [exact H|lia|]. apply (slot_note (t, o) s); [exact Hs|lia].
Qed.
Lemma mark_mem_size m n : mark_mem m -> live n -> exists s, mem_size w POOL calloc m (fst n) (snd n) = Some s /\ size_round w s = sz n.
Proof.
  intros Hm H. destruct (mark_mem_obj m n Hm H) as [He _]. unfold GcSpec.osize in He.
  destruct (mem_size w POOL calloc m (fst n) (snd n)) as [s|]; [|discriminate]. exists s. split; [reflexivity|]. apply some_eq in He.
  destruct (live_facts n H) as (_ & Hp & _ & Hl & _ & Ht). destruct pool_facts as (Hpool & _).
  rewrite <- He. apply round_u; [|lia]. destruct (Z_lt_le_dec s 0); [|assumption].
  assert ((s + 3) / 4 <= 0) by (apply Z.lt_succ_r, Z.div_lt_upper_bound; lia). lia.
Qed.
Lemma list_sz o : live (YList, o) -> sz (YList, o) = 4 * k.
Proof.
  intro H. unfold sz, GcSpec.osize. cbn [fst snd mem_size]. destruct w; reflexivity.
Qed.
Lemma note_word m o next : bytes m -> 0 <= next <= none -> next mod 4 = 0 ->
  geto (set_note_next w o next m) (o + 2 * k) = next + geto m (o + 2 * k) mod 4.
Proof.
  intros Hb Hn Ha. unfold set_note_next. apply get_put. rewrite kbits. destruct none_word as (He & _).
  pose proof (Z.mod_pos_bound (geto m (o + 2 * k)) 4 ltac:(lia)). lia.
Qed.
Lemma set_note_mem m o next : mark_mem m -> live (YList, o) -> 0 <= next <= none -> next mod 4 = 0 -> mark_mem (set_note_next w o next m).
Proof.
  intros (Hb & Hm & Hk) H Hn Ha. pose proof (list_sz o H) as Hs. pose proof (kpos w) as Hkp.
  assert (Hout : forall n i, live n -> 0 <= i < sz n -> ~ (n = (YList, o) /\ 2 * k <= i < 3 * k) -> set_note_next w o next m (snd n + i) = m (snd n + i)).
  { intros n i Hl Hi Hx. unfold set_note_next. apply put_out. destruct (Z_lt_le_dec (snd n + i) (o + 2 * k)); [lia|].
    destruct (Z_lt_le_dec (snd n + i) (o + 3 * k)); [|lia]. exfalso.
    destruct (live_at n (YList, o) i (snd n + i - o) Hl H Hi) as [-> He]; [lia|cbn [snd]; lia|]. apply Hx. split; [reflexivity|lia]. }
  split; [apply put_bytes, Hb|]. split.
  - intros n i Hl Hi Hx. rewrite Hout; [apply Hm; assumption|exact Hl|exact Hi|]. intros [-> Hr]. apply Hx. split; [reflexivity|exact Hr].
  - intros o' H'. rewrite <- (Hk o' H'). destruct (Z.eq_dec o' o) as [->|Hne].
    + rewrite note_word by assumption. pose proof (Z.mod_pos_bound (geto m (o + 2 * k)) 4 ltac:(lia)).
      rewrite Z.add_mod, Ha by lia. rewrite Z.add_0_l, !Z.mod_mod by lia. reflexivity.
    + f_equal. apply get_ext. intros i Hi. pose proof (list_sz o' H'). rewrite <- Z.add_assoc. apply (Hout (YList, o')); [exact H'|lia|].
      intros [He _]. congruence.
Qed.

(** the notes *)
Fixpoint chain (m : mem) (h : Z) (l : list Z) : Prop :=
  match l with
  | [] => h = none
  | x :: l => h = x /\ live (YList, x) /\ chain m (note_next w m x) l
  end.
Lemma chain_head m h l : chain m h l -> 0 <= h <= none /\ h mod 4 = 0.
Proof.
  destruct l as [|x l]; cbn.
  - intros ->. destruct none_word as (_ & H1 & H2). lia.
  - intros (-> & H & _). destruct (live_facts _ H) as (_ & _ & _ & H1 & H2 & _). pose proof (live_range _ H). destruct pool_facts as (_ & Hp & _). cbn [snd] in *. lia.
Qed.
Lemma note_next_out m o next x : live (YList, o) -> live (YList, x) -> x <> o -> note_next w (set_note_next w o next m) x = note_next w m x.
Proof.
  intros H H' Hne. unfold note_next. f_equal. f_equal. unfold set_note_next. apply get_put_out.
  pose proof (list_sz o H) as Hs. pose proof (list_sz x H') as Hs'. pose proof (kpos w).
  destruct (live_apart _ _ H H') as [He|Ha]; [congruence|]. rewrite Hs, Hs' in Ha. cbn [snd] in Ha. lia.
Qed.
Lemma chain_out m o next h l : live (YList, o) -> ~ In o l -> chain m h l -> chain (set_note_next w o next m) h l.
Proof.
  intro H. revert h. induction l as [|x l IH]; intros h Hn Hc; [exact Hc|]. cbn [chain] in *. destruct Hc as (-> & Hx & Hc).
  split; [reflexivity|]. split; [exact Hx|]. rewrite note_next_out; [apply IH; [intro Hi; apply Hn; right; exact Hi|exact Hc]|exact H|exact Hx|]. intro He. apply Hn. left. exact He.
Qed.
Lemma note_next_set m o next : bytes m -> 0 <= next <= none -> next mod 4 = 0 -> note_next w (set_note_next w o next m) o = next.
Proof.
  intros Hb Hn Ha. unfold note_next. rewrite note_word by assumption.
  pose proof (Z.mod_pos_bound (geto m (o + 2 * k)) 4 ltac:(lia)). pose proof (Z.div_mod next 4 ltac:(lia)) as Hd. rewrite Ha in Hd.
  replace (next + geto m (o + 2 * k) mod 4) with (geto m (o + 2 * k) mod 4 + next / 4 * 4) by lia.
  rewrite Z.div_add, Z.div_small by lia. lia.
Qed.
Lemma chain_cons m o h l : bytes m -> live (YList, o) -> ~ In o l -> chain m h l -> chain (set_note_next w o h m) o (o :: l).
Proof.
  intros Hb H Hn Hc. cbn [chain]. split; [reflexivity|]. split; [exact H|]. destruct (chain_head m h l Hc). rewrite note_next_set by assumption.
  apply chain_out; assumption.
Qed.
End Heap.
