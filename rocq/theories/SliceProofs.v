From Verif Require Import Tac Base FloatModel SliceModel SliceSpec.
Local Open Scope Z_scope.

Lemma wbits_pow w : 2 ^ wbits w = match w with W16 => 65536 | W32 => 4294967296 end.
Proof. destruct w; reflexivity. Qed.
Lemma wbits_half w : 2 ^ (wbits w - 1) = match w with W16 => 32768 | W32 => 2147483648 end.
Proof. destruct w; reflexivity. Qed.

Lemma u_of_small w x : 0 <= x < 2 ^ wbits w -> u_of w x = x.
Proof. intros H. unfold u_of, wrapu. apply Z.mod_small. exact H. Qed.

Lemma in_soffset_iff w x : in_soffset w x = true <-> - 2 ^ (wbits w - 1) <= x < 2 ^ (wbits w - 1).
Proof. unfold in_soffset, in_sint. lia. Qed.

Lemma s_of_small w x : in_soffset w x = true -> s_of w x = x.
Proof.
  intros H. apply in_soffset_iff in H. unfold s_of, wraps. rewrite wbits_pow. rewrite wbits_half in *.
  destruct w; cbv zeta.
  - destruct (Z.ltb_spec (x mod 65536) 32768); lia.
  - destruct (Z.ltb_spec (x mod 4294967296) 2147483648); lia.
Qed.

Lemma sint_ok n x y : sint n x = Ok y -> y = x /\ - 2 ^ (n - 1) <= x < 2 ^ (n - 1).
Proof. unfold sint, in_sint. destruct (_ && _) eqn:E; intros H; inv H. lia. Qed.

Lemma pow_mono w ni : wbits w <= ni -> 2 ^ (wbits w - 1) <= 2 ^ (ni - 1).
Proof. intros H. apply Z.pow_le_mono_r; destruct w; cbn in *; lia. Qed.

Lemma sint_in n x : - 2 ^ (n - 1) <= x < 2 ^ (n - 1) -> sint n x = Ok x.
Proof. intros H. unfold sint, in_sint. replace (_ && _) with true by lia. reflexivity. Qed.

(** ** Indexing *)

Lemma list_index_py {A} w ni (l : list A) so :
  wbits w <= ni -> Z.of_nat (length l) < 2 ^ wbits w ->
  - 2 ^ (wbits w - 1) < so < 2 ^ (wbits w - 1) ->
  exists r, list_index w ni (Z.of_nat (length l)) so = Ok r /\
    match r with Some o => nth_error l (Z.to_nat o) | None => None end = py_index l so /\
    (r = None <-> py_index l so = None).
Proof.
  intros Hw Hl Hs. pose proof (pow_mono w ni Hw) as Hp. unfold list_index, py_index.
  set (n := Z.of_nat (length l)) in *. assert (Hn : 0 <= n) by lia.
  assert (Hnth : forall o, 0 <= o < n -> nth_error l (Z.to_nat o) <> None).
  { intros o Ho. apply nth_error_Some. lia. }
  rewrite wbits_half in *. rewrite wbits_pow in *.
  destruct (Z.ltb_spec so 0) as [Hneg|Hpos].
  - rewrite sint_in by (destruct w; lia). cbn [obind].
    rewrite (u_of_small w (- so)) by (rewrite wbits_pow; destruct w; lia).
    unfold u_of, wrapu. rewrite wbits_pow.
    replace (0 <=? so) with false by lia. cbn [andb].
    destruct (Z.leb_spec (- n) so).
    + replace ((n - - so) mod _) with (n + so)
        by (destruct w; lia).
      replace (n <=? n + so) with false by lia. cbn [andb]. eexists; split; [reflexivity|].
      split; [reflexivity|]. split; [discriminate|intros C]. exfalso. revert C. apply Hnth. lia.
    + cbn [andb]. replace (n <=? _) with true by (symmetry; apply Z.leb_le; destruct w; lia).
      eexists; split; [reflexivity|]. tauto.
  - cbn [obind]. rewrite u_of_small by (rewrite wbits_pow; destruct w; lia).
    replace (0 <=? so) with true by lia. cbn [andb].
    destruct (Z.leb_spec n so).
    + replace (so <? n) with false by lia. replace (- n <=? so) with true by lia. cbn [andb].
      eexists; split; [reflexivity|]. tauto.
    + replace (so <? n) with true by lia. eexists; split; [reflexivity|].
      split; [reflexivity|]. split; [discriminate|intros C]. exfalso. revert C. apply Hnth. lia.
Qed.

Lemma string_index_list w ni len so :
  0 <= len < 2 ^ wbits w -> list_index w ni len so = string_index w ni len so.
Proof.
  intros Hl. unfold list_index, string_index. destruct (so <? 0); [|reflexivity].
  destruct (sint ni (- so)); try reflexivity. cbn [obind]. unfold u_of, wrapu.
  replace ((len - a mod 2 ^ wbits w) mod 2 ^ wbits w) with ((len - a) mod 2 ^ wbits w); [reflexivity|].
  rewrite (Zminus_mod len (a mod _)), Zmod_mod, <- Zminus_mod. reflexivity.
Qed.

(** ** Slicing *)

Lemma slice_copy_length {A} w n : forall pos stride (l r : list A),
  slice_copy w n pos stride l = Ok r -> length r = n.
Proof.
  induction n as [|n IH]; intros pos stride l r H; cbn in H; [inv H; reflexivity|].
  destruct (nth_error l (Z.to_nat pos)); [|discriminate].
  destruct (slice_copy w n _ stride l) eqn:E; inv H. cbn. f_equal. eapply IH; eassumption.
Qed.

Lemma slice_copy_nth {A} w n : forall pos stride (l r : list A) k,
  slice_copy w n pos stride l = Ok r -> 0 <= pos < 2 ^ wbits w -> (k < n)%nat ->
  nth_error r k = nth_error l (Z.to_nat (u_of w (pos + Z.of_nat k * stride))) /\ nth_error r k <> None.
Proof.
  induction n as [|n IH]; intros pos stride l r k H Hp Hk; [lia|]. cbn in H.
  destruct (nth_error l (Z.to_nat pos)) eqn:En; [|discriminate].
  destruct (slice_copy w n _ stride l) eqn:E; inv H.
  destruct k as [|k].
  - rewrite Z.mul_0_l, Z.add_0_r, u_of_small by exact Hp. rewrite En. cbn. split; [reflexivity|discriminate].
  - cbn [nth_error]. assert (Hu : 0 <= u_of w (pos + stride) < 2 ^ wbits w).
    { unfold u_of, wrapu. apply Z.mod_pos_bound. apply Z.pow_pos_nonneg; destruct w; cbn; lia. }
    destruct (IH _ _ _ _ k E Hu ltac:(lia)) as [IH1 IH2]. split; [|exact IH2]. rewrite IH1.
    do 2 f_equal. unfold u_of, wrapu. rewrite Zplus_mod_idemp_l. f_equal. lia.
Qed.

Lemma slice_copy_some {A} w n : forall pos stride (l : list A),
  0 <= pos < 2 ^ wbits w ->
  (forall k, (k < n)%nat -> 0 <= pos + Z.of_nat k * stride < Z.of_nat (length l)) ->
  Z.of_nat (length l) <= 2 ^ wbits w ->
  exists r, slice_copy w n pos stride l = Ok r.
Proof.
  induction n as [|n IH]; intros pos stride l Hp Hk Hl; cbn; [eauto|].
  pose proof (Hk O ltac:(lia)) as H0. rewrite Z.mul_0_l, Z.add_0_r in H0.
  destruct (nth_error l (Z.to_nat pos)) eqn:En.
  2: { apply nth_error_None in En. lia. }
  destruct n as [|n].
  - cbn. eauto.
  - pose proof (Hk 1%nat ltac:(lia)) as H1.
    destruct (IH (u_of w (pos + stride)) stride l) as [r Hr].
    + rewrite u_of_small by lia. lia.
    + intros k Hkn. rewrite u_of_small by lia. specialize (Hk (S k) ltac:(lia)). lia.
    + exact Hl.
    + rewrite Hr. cbn. eauto.
Qed.

(** The bounds the code computes, as a relation. *)
Definition code_start (n none stride : Z) (s : option Z) : Z :=
  let x := from_end n (match s with Some x => x | None => none end) in
  if 0 <? stride then if (x =? none) || (x <? 0) then 0 else x
  else if (x =? none) || (n <=? x) then n - 1 else x.
Definition code_end (n none stride : Z) (e : option Z) : Z :=
  let x := from_end n (match e with Some x => x | None => none end) in
  if 0 <? stride then if (x =? none) || (n <? x) then n else x
  else if (x =? none) || (x <? -1) then -1 else x.


Lemma none_pos w : 0 < SOFFSET_NONE w < 2 ^ (wbits w - 1).
Proof. destruct w; cbn; lia. Qed.

Lemma setup_ok w ni n s e st sl :
  snek_slice_setup w ni n s e st = Ok sl ->
  let stride := stride_of st in
  let cs := code_start n (SOFFSET_NONE w) stride s in
  let ce := code_end n (SOFFSET_NONE w) stride e in
  let t := ce + stride - Z.sgn stride - cs in
  let q := s_of w (Z.quot t stride) in
  let count := if q <? 0 then 0 else q in
  stride <> 0 /\ 
  sl = {| sl_count := u_of w count; sl_pos := u_of w cs; sl_stride := stride;
          sl_identity := (cs =? 0) && (count =? n) && (stride =? 1) |}.
Proof.
  intros H. unfold snek_slice_setup in H. fold (stride_of st) in H.
  set (stride := stride_of st) in *. cbv zeta.
  destruct (Z.eqb_spec stride 0); [discriminate|]. split; [assumption|].
  unfold code_start, code_end, from_end.
  set (s0 := match s with Some s => s | None => SOFFSET_NONE w end) in *.
  set (e0 := match e with Some e => e | None => SOFFSET_NONE w end) in *.
  assert (H1 : exists s1, (if s0 <? 0 then sint ni (n + s0) else Ok s0) = Ok s1 /\ s1 = if s0 <? 0 then n + s0 else s0).
  { destruct (s0 <? 0); [|eauto]. destruct (sint ni (n + s0)) eqn:E; try discriminate. apply sint_ok in E as [-> _]. eauto. }
  destruct H1 as (s1 & E1 & ->). rewrite E1 in H. cbn [obind] in H.
  assert (H2 : exists e1, (if e0 <? 0 then sint ni (n + e0) else Ok e0) = Ok e1 /\ e1 = if e0 <? 0 then n + e0 else e0).
  { destruct (e0 <? 0); [|eauto]. destruct (sint ni (n + e0)) eqn:E; try discriminate. apply sint_ok in E as [-> _]. eauto. }
  destruct H2 as (e1 & E2 & ->). rewrite E2 in H. cbn [obind] in H.
  clear E1 E2.
  set (s1 := if s0 <? 0 then n + s0 else s0) in *. set (e1 := if e0 <? 0 then n + e0 else e0) in *.
  destruct (0 <? stride); cbv beta iota zeta in H;
  match type of H with obind (sint ni ?a) _ = _ => destruct (sint ni a) eqn:E3; try discriminate end;
  apply sint_ok in E3 as [-> _]; cbn [obind] in H;
  match type of H with obind (sint ni ?a) _ = _ => destruct (sint ni a) eqn:E3; try discriminate end;
  apply sint_ok in E3 as [-> _]; cbn [obind] in H;
  match type of H with obind (sint ni ?a) _ = _ => destruct (sint ni a) eqn:E3; try discriminate end;
  apply sint_ok in E3 as [-> _]; cbn [obind] in H;
  inv H; reflexivity.
Qed.

Lemma quot_bounds t s : 0 < s -> let q := Z.quot t s in
  (0 <= t -> s * q <= t < s * q + s /\ 0 <= q) /\ (t < 0 -> s * q - s < t <= s * q /\ q <= 0).
Proof.
  intros Hs q. subst q. pose proof (Z.quot_rem' t s) as E. split; intros Ht.
  - pose proof (Z.rem_bound_pos t s Ht Hs). pose proof (Z.quot_pos t s Ht Hs). lia.
  - assert (Hn : 0 <= - t) by lia. pose proof (Z.rem_bound_pos (- t) s Hn Hs). pose proof (Z.quot_pos (- t) s Hn Hs).
    rewrite Z.quot_opp_l in * by lia. rewrite Z.rem_opp_l in * by lia. lia.
Qed.

Lemma quot_opp t s : s <> 0 -> Z.quot t s = Z.quot (- t) (- s).
Proof. intros H. rewrite Z.quot_opp_opp by exact H. reflexivity. Qed.

Lemma s_of_range w x : - 2 ^ (wbits w - 1) <= s_of w x < 2 ^ (wbits w - 1).
Proof.
  unfold s_of, wraps. rewrite wbits_pow, wbits_half. destruct w; cbv zeta.
  - destruct (Z.ltb_spec (x mod 65536) 32768); lia.
  - destruct (Z.ltb_spec (x mod 4294967296) 2147483648); lia.
Qed.

Lemma s_of_neg_wrap w x : - 2 ^ wbits w < x < - 2 ^ (wbits w - 1) -> 0 < s_of w x.
Proof.
  unfold s_of, wraps. rewrite wbits_pow, wbits_half. destruct w; cbv zeta.
  - destruct (Z.ltb_spec (x mod 65536) 32768); lia.
  - destruct (Z.ltb_spec (x mod 4294967296) 2147483648); lia.
Qed.

(** Facts about the two pairs of bounds. *)
Lemma start_facts w n stride s : 0 <= n < 2 ^ (wbits w - 1) -> opt_ok w s -> s <> Some (SOFFSET_NONE w) ->
  n <= SOFFSET_NONE w ->
  let cs := code_start n (SOFFSET_NONE w) stride s in
  let ps := py_start n stride s in
  - 2 ^ (wbits w - 1) <= cs < 2 ^ (wbits w - 1) /\
  (if 0 <? stride then 0 <= cs /\ ps = Z.min n cs else cs <= n - 1 /\ ps = Z.max (-1) cs).
Proof.
  intros Hn Hs Hne Hnn. cbv zeta. unfold code_start, py_start, from_end, clip.
  pose proof (none_pos w) as Hnp. set (none := SOFFSET_NONE w) in *. set (M := 2 ^ (wbits w - 1)) in *.
  destruct s as [x|].
  - cbn in Hs. apply in_soffset_iff in Hs. fold M in Hs. assert (x <> none) by congruence.
    destruct (Z.ltb_spec 0 stride); destruct (Z.ltb_spec x 0);
    match goal with |- context[(?a =? none) || _] => replace (a =? none) with false by lia end; cbn [orb].
    + destruct (Z.ltb_spec (n + x) 0); lia.
    + replace (x <? 0) with false by lia. lia.
    + replace (n <=? n + x) with false by lia. lia.
    + destruct (Z.leb_spec n x); lia.
  - replace (none <? 0) with false by lia. rewrite Z.eqb_refl. cbn [orb].
    destruct (Z.ltb_spec 0 stride); lia.
Qed.

Lemma end_facts w n stride e : 0 <= n < 2 ^ (wbits w - 1) -> opt_ok w e -> e <> Some (SOFFSET_NONE w) ->
  n <= SOFFSET_NONE w ->
  let ce := code_end n (SOFFSET_NONE w) stride e in
  let pe := py_end n stride e in
  (if 0 <? stride then n - 2 ^ (wbits w - 1) <= ce <= n /\ pe = Z.max 0 ce
   else -1 <= ce < 2 ^ (wbits w - 1) /\ pe = Z.min (n - 1) ce).
Proof.
  intros Hn Hs Hne Hnn. cbv zeta. unfold code_end, py_end, from_end, clip.
  pose proof (none_pos w) as Hnp. set (none := SOFFSET_NONE w) in *. set (M := 2 ^ (wbits w - 1)) in *.
  destruct e as [x|].
  - cbn in Hs. apply in_soffset_iff in Hs. fold M in Hs. assert (x <> none) by congruence.
    destruct (Z.ltb_spec 0 stride); destruct (Z.ltb_spec x 0);
    match goal with |- context[(?a =? none) || _] => replace (a =? none) with false by lia end; cbn [orb].
    + replace (n <? n + x) with false by lia. lia.
    + destruct (Z.ltb_spec n x); lia.
    + destruct (Z.ltb_spec (n + x) (-1)); lia.
    + replace (x <? -1) with false by lia. lia.
  - replace (none <? 0) with false by lia. rewrite Z.eqb_refl. cbn [orb].
    destruct (Z.ltb_spec 0 stride); lia.
Qed.

Lemma count_arith M n cs ce ps pe stride :
  32768 <= M -> 0 <= n < M -> stride <> 0 -> - M <= stride < M -> - M <= cs < M ->
  (if 0 <? stride then 0 <= cs /\ ps = Z.min n cs else cs <= n - 1 /\ ps = Z.max (-1) cs) ->
  (if 0 <? stride then n - M <= ce <= n /\ pe = Z.max 0 ce else -1 <= ce < M /\ pe = Z.min (n - 1) ce) ->
  let q := Z.quot (ce + stride - Z.sgn stride - cs) stride in
  let count := if q <? 0 then 0 else q in
  (- M <= q < M \/ - (2 * M) < q < - M /\ ~ (0 <= cs < n)) /\
  0 <= count <= n /\ (0 < count -> cs = ps /\ 0 <= cs < n) /\
  (forall k, 0 <= k < count -> 0 <= cs + k * stride < n /\ before stride (cs + k * stride) pe) /\
  ~ before stride (ps + count * stride) pe.
Proof.
  intros HM Hn Hz Hst Hcs Fs Fe. cbv zeta. unfold before.
  destruct (Z.ltb_spec 0 stride) as [Hp|Hp].
  - rewrite Z.sgn_pos in * by lia.
    destruct (quot_bounds (ce + stride - 1 - cs) stride Hp) as [Q1 Q2].
    generalize dependent (Z.quot (ce + stride - 1 - cs) stride). intros x Q1 Q2.
    destruct (Z_lt_le_dec (ce + stride - 1 - cs) 0) as [Hlt|Hge].
    + destruct (Q2 Hlt) as [Q3 Q4]. replace (if x <? 0 then 0 else x) with 0 by (destruct (Z.ltb_spec x 0); lia).
      split; [|repeat split; lia].
      destruct (Z_lt_le_dec x (- M)) as [Hx|Hx]; [right|left; lia].
      assert (stride = 1) by nia. subst stride. lia.
    + destruct (Q1 Hge) as [Q3 Q4]. replace (x <? 0) with false by lia.
      destruct (Z.eq_dec x 0) as [E0|E0]; [subst x; repeat split; lia|].
      assert (stride <= stride * x) by nia. assert (Hsx : x <= stride * x) by nia.
      assert (cs < ce) by lia. assert (Hps : ps = cs) by lia.
      assert (x <= n) by nia.
      split; [lia|]. split; [lia|]. split; [lia|]. split; [|rewrite Hps; nia].
      intros k Hk. assert (0 <= k * stride) by nia. assert (k * stride <= stride * x - stride) by nia. lia.
  - assert (Hp' : 0 < - stride) by lia. rewrite Z.sgn_neg in * by lia.
    rewrite quot_opp in * by lia.
    destruct (quot_bounds (- (ce + stride - -1 - cs)) (- stride) Hp') as [Q1 Q2].
    generalize dependent (Z.quot (- (ce + stride - -1 - cs)) (- stride)). intros x Q1 Q2.
    destruct (Z_lt_le_dec (- (ce + stride - -1 - cs)) 0) as [Hlt|Hge].
    + destruct (Q2 Hlt) as [Q3 Q4]. replace (if x <? 0 then 0 else x) with 0 by (destruct (Z.ltb_spec x 0); lia).
      split; [|repeat split; lia].
      destruct (Z_lt_le_dec x (- M)) as [Hx|Hx]; [right|left; lia].
      assert (stride = -1) by nia. subst stride. lia.
    + destruct (Q1 Hge) as [Q3 Q4]. replace (x <? 0) with false by lia.
      destruct (Z.eq_dec x 0) as [E0|E0]; [subst x; repeat split; lia|].
      assert (- stride <= - stride * x) by nia. assert (Hsx : x <= - stride * x) by nia.
      assert (ce < cs) by lia. assert (Hps : ps = cs) by lia.
      assert (x <= n) by nia.
      split; [lia|]. split; [lia|]. split; [lia|]. split; [|rewrite Hps; nia].
      intros k Hk. assert (k * stride <= 0) by nia. assert (- stride * k <= - stride * x - - stride) by nia. lia.
Qed.

Lemma slice_py {A} w ni (l r : list A) s e st :
  Z.of_nat (length l) <= SOFFSET_NONE w ->
  opt_ok w s -> opt_ok w e -> opt_ok w st ->
  s <> Some (SOFFSET_NONE w) -> e <> Some (SOFFSET_NONE w) ->
  snek_slice w ni l s e st = Ok r ->
  stride_of st <> 0 /\ py_slice l s e (stride_of st) r.
Proof.
  intros Hnn Hs He Hst Hsn Hen H. unfold snek_slice in H.
  pose proof (none_pos w) as Hnp.
  set (n := Z.of_nat (length l)) in *. assert (Hn : 0 <= n < 2 ^ (wbits w - 1)) by lia.
  destruct (snek_slice_setup w ni n s e st) as [sl| |] eqn:Es; try discriminate. cbn [obind] in H.
  apply setup_ok in Es. cbv zeta in Es. destruct Es as [Hz Es]. split; [exact Hz|].
  assert (Hst' : - 2 ^ (wbits w - 1) <= stride_of st < 2 ^ (wbits w - 1)).
  { destruct st; cbn in *; [apply in_soffset_iff; assumption|destruct w; cbn; lia]. }
  set (stride := stride_of st) in *. clearbody stride. clear Hst st.
  pose proof (start_facts w n stride s Hn Hs Hsn Hnn) as Fs.
  pose proof (end_facts w n stride e Hn He Hen Hnn) as Fe. cbv zeta in Fs, Fe.
  unfold py_slice. fold n.
  assert (HM : 2 ^ wbits w = 2 * 2 ^ (wbits w - 1)) by (destruct w; reflexivity).
  assert (HM0 : 32768 <= 2 ^ (wbits w - 1)) by (destruct w; cbn; lia).
  pose proof (count_arith _ n _ _ _ _ stride HM0 Hn Hz Hst' (proj1 Fs) (proj2 Fs) Fe) as Hcnt. cbv zeta in Hcnt.
  set (cs := code_start n (SOFFSET_NONE w) stride s) in *; clearbody cs.
  set (ps := py_start n stride s) in *; clearbody ps.
  set (ce := code_end n (SOFFSET_NONE w) stride e) in *; clearbody ce.
  set (pe := py_end n stride e) in *; clearbody pe.
  set (q := Z.quot (ce + stride - Z.sgn stride - cs) stride) in *; clearbody q.
  destruct Hcnt as [Hq Hcnt].
  assert (Hcount : s_of w q = q).
  { destruct Hq as [Hq|(Hq1 & Hq3)]; [apply s_of_small, in_soffset_iff; exact Hq|exfalso].
    pose proof (s_of_neg_wrap w q ltac:(lia)) as Hpos. pose proof (s_of_range w q) as Hrg.
    rewrite Es in H. cbn in H. replace (s_of w q <? 0) with false in H by lia.
    destruct ((cs =? 0) && (s_of w q =? n) && (stride =? 1)) eqn:Ei.
    - lia.
    - rewrite (u_of_small w (s_of w q)) in H by lia.
      destruct (Z.to_nat (s_of w q)) as [|m] eqn:Em; [lia|]. cbn in H.
      destruct (nth_error l (Z.to_nat (u_of w cs))) eqn:En; [|discriminate].
      assert (Hlt : (Z.to_nat (u_of w cs) < length l)%nat) by (apply nth_error_Some; congruence).
      unfold u_of, wrapu in Hlt.
      assert (Hmod : 0 <= cs mod 2 ^ wbits w < n).
      { pose proof (Z.mod_pos_bound cs (2 ^ wbits w) ltac:(lia)). lia. }
      apply Hq3. destruct (Z_lt_le_dec cs 0) as [Hneg|Hge].
      + rewrite <- (Z.mod_unique cs (2 ^ wbits w) (-1) (cs + 2 ^ wbits w)) in Hmod by lia. lia.
      + rewrite Z.mod_small in Hmod by lia. lia. }
  rewrite Hcount in Es. clear Hq Hcount.
  set (count := if q <? 0 then 0 else q) in *; clearbody count.
  destruct Hcnt as (Hc0 & Hc1 & Hc2 & Hc3).
  subst sl. cbn in H. destruct ((cs =? 0) && (count =? n) && (stride =? 1)) eqn:Ei.
  - inv H. fold n. assert (cs = 0 /\ count = n /\ stride = 1) as (-> & Ecn & Es1) by lia.
    rewrite Ecn in Hc1, Hc2, Hc3. rewrite Es1 in *. split; [|exact Hc3].
    intros k x Hx. assert (Hk : (k < length r)%nat) by (apply nth_error_Some; congruence).
    destruct (Hc1 ltac:(lia)) as [E0 _]. rewrite <- E0.
    destruct (Hc2 (Z.of_nat k) ltac:(lia)) as [B1 B2]. split; [exact B1|]. split; [exact B2|].
    rewrite <- Hx. f_equal. lia.
  - rewrite (u_of_small w count) in H by lia.
    pose proof (slice_copy_length w _ _ _ _ _ H) as Hlen. split.
    + intros k x Hx. assert (Hk : (k < length r)%nat) by (apply nth_error_Some; congruence).
      destruct (Hc1 ltac:(lia)) as [E0 B0]. rewrite <- E0. rewrite (u_of_small w cs) in H by lia.
      destruct (Hc2 (Z.of_nat k) ltac:(lia)) as [B1 B2]. split; [exact B1|]. split; [exact B2|].
      destruct (slice_copy_nth w _ _ _ _ _ k H ltac:(lia) ltac:(lia)) as [N1 _].
      rewrite u_of_small in N1 by lia. congruence.
    + rewrite Hlen. rewrite Z2Nat.id by lia. exact Hc3.
Qed.

(** ** No overflow *)

Lemma slice_defined {A} w ni (l : list A) s e st :
  wbits w <= ni -> Z.of_nat (length l) <= 2 ^ (ni - 3) -> Z.of_nat (length l) <= SOFFSET_NONE w ->
  (forall x, s = Some x -> Z.abs x <= 2 ^ (ni - 3) /\ in_soffset w x = true) ->
  (forall x, e = Some x -> Z.abs x <= 2 ^ (ni - 3) /\ in_soffset w x = true) ->
  (forall x, st = Some x -> Z.abs x <= 2 ^ (ni - 3) /\ in_soffset w x = true) ->
  (s = None -> SOFFSET_NONE w <= 2 ^ (ni - 1) - 1) ->
  stride_of st <> 0 ->
  exists sl, snek_slice_setup w ni (Z.of_nat (length l)) s e st = Ok sl.
Proof.
  intros Hw Hn Hnn Hs He Hst _ Hz. set (n := Z.of_nat (length l)) in *. assert (0 <= n) by lia.
  assert (HB : 2 ^ (ni - 1) = 4 * 2 ^ (ni - 3)).
  { change 4 with (2 ^ 2). rewrite <- Z.pow_add_r; [f_equal; lia|lia|destruct w; cbn in *; lia]. }
  assert (HB1 : 8192 <= 2 ^ (ni - 3)).
  { change 8192 with (2 ^ 13). apply Z.pow_le_mono_r; destruct w; cbn in *; lia. }
  set (B := 2 ^ (ni - 3)) in *.
  assert (Hstr : Z.abs (stride_of st) <= B).
  { destruct st; cbn; [apply Hst; reflexivity|lia]. }
  unfold snek_slice_setup. fold (stride_of st). replace (stride_of st =? 0) with false by lia.
  set (stride := stride_of st) in *. clearbody stride.
  pose proof (none_pos w) as Hnp.
  assert (Hso : exists s1, (if (match s with Some x => x | None => SOFFSET_NONE w end) <? 0
     then sint ni (n + match s with Some x => x | None => SOFFSET_NONE w end)
     else Ok (match s with Some x => x | None => SOFFSET_NONE w end)) = Ok s1 /\ (s1 = SOFFSET_NONE w \/ Z.abs s1 <= B)).
  { destruct s as [x|].
    - destruct (Hs x eq_refl). destruct (Z.ltb_spec x 0); [rewrite sint_in by lia|]; eexists; split; try reflexivity; lia.
    - replace (_ <? 0) with false by lia. eexists; split; [reflexivity|]. left; reflexivity. }
  assert (Heo : exists s1, (if (match e with Some x => x | None => SOFFSET_NONE w end) <? 0
     then sint ni (n + match e with Some x => x | None => SOFFSET_NONE w end)
     else Ok (match e with Some x => x | None => SOFFSET_NONE w end)) = Ok s1 /\ (s1 = SOFFSET_NONE w \/ Z.abs s1 <= B)).
  { destruct e as [x|].
    - destruct (He x eq_refl). destruct (Z.ltb_spec x 0); [rewrite sint_in by lia|]; eexists; split; try reflexivity; lia.
    - replace (_ <? 0) with false by lia. eexists; split; [reflexivity|]. left; reflexivity. }
  destruct Hso as (s1 & -> & Hs1). destruct Heo as (e1 & -> & He1). cbn [obind].
  assert (Hfin : forall a b, Z.abs a <= B -> Z.abs b <= B -> exists sl,
    (let! t := sint ni (b + stride) in
     let! t0 := sint ni (t - soffset_sgn stride) in
     let! t1 := sint ni (t0 - a) in
     let count := s_of w (Z.quot t1 stride) in
     let count0 := if count <? 0 then 0 else count in
     Ok {| sl_count := u_of w count0; sl_pos := u_of w a; sl_stride := stride;
           sl_identity := (a =? 0) && (count0 =? n) && (stride =? 1) |})%outcome = Ok sl).
  { intros a b Ha Hb. assert (Z.sgn stride = 1 \/ Z.sgn stride = -1) by lia. unfold soffset_sgn.
    rewrite sint_in by lia. cbn [obind]. rewrite sint_in by lia. cbn [obind].
    rewrite sint_in by lia. cbn [obind]. eauto. }
  destruct (Z.ltb_spec 0 stride); cbv beta iota zeta; apply Hfin;
    repeat match goal with |- context[if ?b then _ else _] => destruct b eqn:? end; lia.
Qed.


Lemma code_start_small B n none stride s :
  0 <= n -> B < none -> (forall x, s = Some x -> Z.abs x <= B) -> 0 <= B -> 0 < none -> n <= none ->
  let c := code_start n none stride s in
  c <= Z.max (n - 1) B /\ Z.min (-1) (n - B) <= c.
Proof.
  intros Hn HB Hs H0 Hnp Hnn c. subst c. unfold code_start, from_end. destruct s as [x|].
  - specialize (Hs x eq_refl).
    destruct (Z.ltb_spec 0 stride), (Z.ltb_spec x 0).
    + replace (n + x =? none) with false by lia. cbn [orb]. destruct (Z.ltb_spec (n + x) 0); lia.
    + replace (x =? none) with false by lia. replace (x <? 0) with false by lia. cbn [orb]. lia.
    + replace (n + x =? none) with false by lia. replace (n <=? n + x) with false by lia. cbn [orb]. lia.
    + replace (x =? none) with false by lia. cbn [orb]. destruct (Z.leb_spec n x); lia.
  - replace (none <? 0) with false by lia. rewrite Z.eqb_refl. cbn [orb].
    destruct (Z.ltb_spec 0 stride); lia.
Qed.

Lemma code_end_small B n none stride s :
  0 <= n -> B < none -> (forall x, s = Some x -> Z.abs x <= B) -> 0 <= B -> 0 < none -> n <= none ->
  let c := code_end n none stride s in
  (Z.min 0 (n - B) <= c \/ -1 <= c /\ stride <= 0) /\ (stride <= 0 -> c <= Z.max n B).
Proof.
  intros Hn HB Hs H0 Hnp Hnn c. subst c. unfold code_end, from_end. destruct s as [x|].
  - specialize (Hs x eq_refl).
    destruct (Z.ltb_spec 0 stride), (Z.ltb_spec x 0).
    + replace (n + x =? none) with false by lia. replace (n <? n + x) with false by lia. cbn [orb]. lia.
    + replace (x =? none) with false by lia. cbn [orb]. destruct (Z.ltb_spec n x); lia.
    + replace (n + x =? none) with false by lia. cbn [orb]. destruct (Z.ltb_spec (n + x) (-1)); lia.
    + replace (x =? none) with false by lia. replace (x <? -1) with false by lia. cbn [orb]. lia.
  - replace (none <? 0) with false by lia. rewrite Z.eqb_refl. cbn [orb].
    destruct (Z.ltb_spec 0 stride); lia.
Qed.

Lemma slice_total {A} w ni (l : list A) s e st :
  wbits w <= ni -> Z.of_nat (length l) <= 2 ^ (ni - 3) -> Z.of_nat (length l) <= SOFFSET_NONE w ->
  small w s -> small w e -> small w st -> stride_of st <> 0 ->
  exists r, snek_slice w ni l s e st = Ok r.
Proof.
  intros Hw Hn Hnn Hs He Hst Hz.
  assert (HB8 : 2 ^ (wbits w - 1) = 4 * 2 ^ (wbits w - 3)) by (destruct w; reflexivity).
  assert (HBB : 2 ^ (wbits w - 3) <= 2 ^ (ni - 3)) by (apply Z.pow_le_mono_r; lia).
  assert (HBN : 8192 <= 2 ^ (wbits w - 3) < SOFFSET_NONE w) by (destruct w; cbn; lia).
  assert (Hso : forall o, small w o -> opt_ok w o /\ o <> Some (SOFFSET_NONE w) /\
            (forall x, o = Some x -> Z.abs x <= 2 ^ (ni - 3) /\ in_soffset w x = true)).
  { intros [x|] Hx; cbn [small opt_ok] in *.
    - assert (in_soffset w x = true) by (apply in_soffset_iff; lia).
      split; [assumption|]. split; [intros C; injection C; lia|]. intros y E; injection E as <-. split; [lia|assumption].
    - split; [exact I|]. split; [discriminate|]. intros; discriminate. }
  destruct (Hso s Hs) as (Os & Ns & Bs). destruct (Hso e He) as (Oe & Ne & Be). destruct (Hso st Hst) as (Ot & _ & Bt).
  assert (HN1 : s = None -> SOFFSET_NONE w <= 2 ^ (ni - 1) - 1).
  { intros _. pose proof (pow_mono w ni Hw). pose proof (none_pos w). lia. }
  destruct (slice_defined w ni l s e st Hw Hn Hnn Bs Be Bt HN1 Hz) as [sl Hsl].
  unfold snek_slice. rewrite Hsl. cbn [obind].
  set (n := Z.of_nat (length l)) in *.
  pose proof (none_pos w) as Hnp. assert (Hn' : 0 <= n < 2 ^ (wbits w - 1)) by lia.
  apply setup_ok in Hsl. cbv zeta in Hsl. destruct Hsl as [_ Es].
  assert (Hst' : - 2 ^ (wbits w - 1) <= stride_of st < 2 ^ (wbits w - 1)).
  { destruct st; cbn [stride_of small] in *; lia. }
  set (stride := stride_of st) in *. clearbody stride.
  pose proof (start_facts w n stride s Hn' Os Ns Hnn) as Fs.
  pose proof (end_facts w n stride e Hn' Oe Ne Hnn) as Fe. cbv zeta in Fs, Fe.
  assert (HM : 2 ^ wbits w = 2 * 2 ^ (wbits w - 1)) by (destruct w; reflexivity).
  assert (HM0 : 32768 <= 2 ^ (wbits w - 1)) by (destruct w; cbn; lia).
  pose proof (count_arith _ n _ _ _ _ stride HM0 Hn' Hz Hst' (proj1 Fs) (proj2 Fs) Fe) as Hcnt. cbv zeta in Hcnt.
  destruct Hcnt as (Hq & Hc0 & Hc1 & Hc2 & _).
  assert (Hq' : s_of w (Z.quot (code_end n (SOFFSET_NONE w) stride e + stride - Z.sgn stride - code_start n (SOFFSET_NONE w) stride s) stride)
              = Z.quot (code_end n (SOFFSET_NONE w) stride e + stride - Z.sgn stride - code_start n (SOFFSET_NONE w) stride s) stride).
  { apply s_of_small, in_soffset_iff. destruct Hq as [Hq|[Hq _]]; [exact Hq|exfalso].
    set (B := 2 ^ (wbits w - 3)) in *.
    destruct (code_start_small B n (SOFFSET_NONE w) stride s) as (Hcs1 & Hcs3); [lia|lia| |lia|lia|lia|].
    { intros x Hx. subst s. exact Hs. }
    destruct (code_end_small B n (SOFFSET_NONE w) stride e) as (Hce1 & Hce2); [lia|lia| |lia|lia|lia|].
    { intros x Hx. subst e. exact He. }
    clear - Hq Hcs1 Hcs3 Hce1 Hce2 HB8 Hn' Hz HBN.
    set (cs := code_start n (SOFFSET_NONE w) stride s) in *. clearbody cs.
    set (ce := code_end n (SOFFSET_NONE w) stride e) in *. clearbody ce.
    destruct (Z.ltb_spec 0 stride) as [Hp|Hp].
    - rewrite Z.sgn_pos in * by lia. destruct (quot_bounds (ce + stride - 1 - cs) stride Hp) as [Q1 Q2].
      set (x := Z.quot _ stride) in *. clearbody x.
      destruct (Z_lt_le_dec (ce + stride - 1 - cs) 0) as [Hlt|Hge]; [|lia].
      destruct (Q2 Hlt). assert (x >= stride * x - 0 \/ x < 0) by lia. nia.
    - rewrite Z.sgn_neg in * by lia. rewrite quot_opp in * by lia.
      destruct (quot_bounds (- (ce + stride - -1 - cs)) (- stride) ltac:(lia)) as [Q1 Q2].
      set (x := Z.quot _ (- stride)) in *. clearbody x.
      destruct (Z_lt_le_dec (- (ce + stride - -1 - cs)) 0) as [Hlt|Hge]; [|lia].
      destruct (Q2 Hlt). assert (- stride * x - - stride <= x - 1) by nia. lia. }
  rewrite Hq' in Es. clear Hq Hq'.
  set (cs := code_start n (SOFFSET_NONE w) stride s) in *. clearbody cs.
  set (q := Z.quot _ stride) in *. clearbody q.
  set (count := if q <? 0 then 0 else q) in *. clearbody count.
  subst sl. cbn.
  destruct ((cs =? 0) && (count =? n) && (stride =? 1)) eqn:Ei; [eauto|].
  rewrite (u_of_small w count) by lia.
  destruct (Z.eq_dec count 0) as [E0|E0]; [subst count; cbn; eauto|].
  destruct (Hc1 ltac:(lia)) as [_ Hr].
  rewrite (u_of_small w cs) by lia. apply slice_copy_some; [lia| |fold n; lia].
  intros k Hk. apply Hc2. lia.
Qed.

(** ** Undefined behaviour does occur *)
Lemma slice_overflow : exists n, snek_slice_setup W32 32 n None None (Some 2147483520) = UB /\ 0 <= n <= 200.
Proof. exists 200. split; [reflexivity|lia]. Qed.
