(** Every step of the hash function can be undone, so that every long name has others
    with the same hash. *)
From Coq Require Import Lia.
From Verif Require Import Base Murmur.

Definition w64 (x : Z) : Prop := 0 <= x < two64.
Definition s64 (h : Z * Z) : Prop := w64 (fst h) /\ w64 (snd h).

Lemma two64_pow : two64 = 2 ^ 64. Proof. reflexivity. Qed.
Lemma u64_w x : w64 (u64 x). Proof. unfold w64, u64. apply Z.mod_pos_bound. reflexivity. Qed.
Lemma u64_id x : w64 x -> u64 x = x. Proof. apply Z.mod_small. Qed.
Lemma w64_bits x i : w64 x -> 64 <= i -> Z.testbit x i = false.
Proof.
  intros [H1 H2] Hi. destruct (Z.eq_dec x 0) as [->|N]; [apply Z.testbit_0_l|].
  apply Z.bits_above_log2; [lia|]. apply Z.log2_lt_pow2; [lia|]. apply Z.lt_le_trans with (1 := H2).
  rewrite two64_pow. apply Z.pow_le_mono_r; lia.
Qed.
Lemma bits_w64 x : 0 <= x -> (forall i, 64 <= i -> Z.testbit x i = false) -> w64 x.
Proof.
  intros H0 H. split; [assumption|]. destruct (Z_lt_le_dec x two64) as [|C]; [assumption|exfalso].
  assert (Hl : 64 <= Z.log2 x) by (apply Z.log2_le_pow2; [unfold two64 in C; lia|now rewrite <- two64_pow]).
  specialize (H _ Hl). rewrite Z.bit_log2 in H; [discriminate|unfold two64 in C; lia].
Qed.
Lemma lxor_w x y : w64 x -> w64 y -> w64 (Z.lxor x y).
Proof.
  intros Hx Hy. apply bits_w64; [apply Z.lxor_nonneg; unfold w64 in *; lia|].
  intros i Hi. now rewrite Z.lxor_spec, !w64_bits.
Qed.
Lemma shiftr_w x r : 0 <= r -> w64 x -> w64 (Z.shiftr x r).
Proof.
  intros Hr Hx. apply bits_w64; [apply Z.shiftr_nonneg; unfold w64 in *; lia|].
  intros i Hi. rewrite Z.shiftr_spec by lia. apply w64_bits; [assumption|lia].
Qed.
Lemma u64_bits x i : 0 <= i -> Z.testbit (u64 x) i = (i <? 64) && Z.testbit x i.
Proof.
  intros Hi. unfold u64. rewrite two64_pow. destruct (i <? 64) eqn:E.
  - apply Z.mod_pow2_bits_low. lia.
  - apply Z.mod_pow2_bits_high. lia.
Qed.
Lemma rotl_bits r x i : w64 x -> 0 < r < 64 -> 0 <= i -> Z.testbit (rotl r x) i = (i <? 64) && Z.testbit x (if i <? r then i + 64 - r else i - r).
Proof.
  intros Hx Hr Hi. unfold rotl. rewrite Z.lor_spec, u64_bits, Z.shiftl_spec, Z.shiftr_spec by lia.
  destruct (i <? 64) eqn:E; cbn [andb].
  - destruct (i <? r) eqn:Er.
    + rewrite (Z.testbit_neg_r x (i - r)) by lia. cbn [orb]. f_equal. lia.
    + rewrite (w64_bits x (i + (64 - r))) by (assumption || lia). apply Bool.orb_false_r.
  - cbn [orb]. apply w64_bits; [assumption|lia].
Qed.
Lemma rotl_w r x : w64 x -> 0 < r < 64 -> w64 (rotl r x).
Proof.
  intros Hx Hr. apply bits_w64.
  - unfold rotl. apply Z.lor_nonneg. split; [apply u64_w|apply Z.shiftr_nonneg; apply Hx].
  - intros i Hi. rewrite rotl_bits by (assumption || lia). now replace (i <? 64) with false by lia.
Qed.
Lemma rotl_rotl r q x : w64 x -> 0 < r < 64 -> q = 64 - r -> rotl r (rotl q x) = x.
Proof.
  intros Hx Hr ->. apply Z.bits_inj'. intros i Hi.
  rewrite rotl_bits by (try apply rotl_w; assumption || lia).
  destruct (i <? 64) eqn:E; cbn [andb]; [|symmetry; apply w64_bits; [assumption|lia]].
  rewrite rotl_bits by (assumption || destruct (i <? r) eqn:?; lia).
  destruct (i <? r) eqn:Er.
  - replace (i + 64 - r <? 64) with true by lia. cbn [andb]. replace (i + 64 - r <? 64 - r) with false by lia. f_equal. lia.
  - replace (i - r <? 64) with true by lia. cbn [andb]. replace (i - r <? 64 - r) with true by lia. f_equal. lia.
Qed.
Lemma xs_xs x : w64 x -> let y := Z.lxor x (Z.shiftr x 33) in Z.lxor y (Z.shiftr y 33) = x.
Proof.
  intros Hx y. unfold y. rewrite Z.shiftr_lxor, Z.shiftr_shiftr by lia.
  rewrite <- Z.lxor_assoc, (Z.lxor_assoc x), Z.lxor_nilpotent, Z.lxor_0_r.
  replace (Z.shiftr x (33 + 33)) with 0; [apply Z.lxor_0_r|].
  symmetry. apply Z.bits_inj_0. intros i. destruct (Z_lt_le_dec i 0) as [L|L]; [now apply Z.testbit_neg_r|].
  rewrite Z.shiftr_spec by lia. apply w64_bits; [assumption|lia].
Qed.
Lemma mul_mul c ci x : w64 x -> (ci * c) mod two64 = 1 -> u64 (u64 (x * ci) * c) = x.
Proof.
  intros Hx H. unfold u64. rewrite Z.mul_mod_idemp_l by discriminate. rewrite <- Z.mul_assoc, <- Z.mul_mod_idemp_r by discriminate.
  rewrite H, Z.mul_1_r. now apply Z.mod_small.
Qed.
Lemma lxor_lxor x y : Z.lxor (Z.lxor x y) y = x.
Proof. now rewrite Z.lxor_assoc, Z.lxor_nilpotent, Z.lxor_0_r. Qed.

(** Solving each step for its input. *)
Lemma mix1_onto y : w64 y -> exists k, w64 k /\ mix1 k = y.
Proof.
  intros Hy. exists (u64 (rotl 33 (u64 (y * 12114143059468233855)) * 12214898983567248765)). split; [apply u64_w|].
  unfold mix1. rewrite mul_mul by (try apply rotl_w; try apply u64_w; (lia || reflexivity)).
  rewrite rotl_rotl by (try apply u64_w; lia). apply mul_mul; [assumption|reflexivity].
Qed.
Lemma mix2_onto y : w64 y -> exists k, w64 k /\ mix2 k = y.
Proof.
  intros Hy. exists (u64 (rotl 31 (u64 (y * 12214898983567248765)) * 12114143059468233855)). split; [apply u64_w|].
  unfold mix2. rewrite mul_mul by (try apply rotl_w; try apply u64_w; (lia || reflexivity)).
  rewrite rotl_rotl by (try apply u64_w; lia). apply mul_mul; [assumption|reflexivity].
Qed.
Lemma mix1_w k : w64 (mix1 k). Proof. apply u64_w. Qed.
Lemma mix2_w k : w64 (mix2 k). Proof. apply u64_w. Qed.
Lemma fmix_onto y : w64 y -> exists k, w64 k /\ fmix k = y.
Proof.
  intros Hy.
  assert (Hx : forall z, w64 z -> w64 (Z.lxor z (Z.shiftr z 33))) by (intros z Hz; apply lxor_w; [assumption|apply shiftr_w; [lia|assumption]]).
  set (a := Z.lxor y (Z.shiftr y 33)). set (b := u64 (a * 11291846944257947611)). set (c := Z.lxor b (Z.shiftr b 33)).
  set (d := u64 (c * 5725274745694666757)). set (e := Z.lxor d (Z.shiftr d 33)).
  assert (Ha : w64 a) by now apply Hx. assert (Hb : w64 b) by apply u64_w. assert (Hc : w64 c) by now apply Hx.
  assert (Hd : w64 d) by apply u64_w. exists e. split; [now apply Hx|]. unfold fmix. cbv zeta.
  replace (Z.lxor e (Z.shiftr e 33)) with d by (symmetry; exact (xs_xs d Hd)).
  replace (u64 (d * mf1)) with c by (symmetry; apply mul_mul; [assumption|reflexivity]).
  replace (Z.lxor c (Z.shiftr c 33)) with b by (symmetry; exact (xs_xs b Hb)).
  replace (u64 (b * mf2)) with a by (symmetry; apply mul_mul; [assumption|reflexivity]).
  exact (xs_xs y Hy).
Qed.
Lemma affine_onto y c a : w64 y -> exists x, w64 x /\ u64 (u64 (x + a) * 5 + c) = y.
Proof.
  intros Hy. exists (u64 (u64 (u64 (y - c) * 14757395258967641293) - a)). split; [apply u64_w|].
  replace (u64 (u64 (u64 (u64 (y - c) * 14757395258967641293) - a) + a)) with (u64 (u64 (y - c) * 14757395258967641293)).
  - unfold u64 at 1. rewrite <- Z.add_mod_idemp_l by discriminate. fold (u64 (u64 (u64 (y - c) * 14757395258967641293) * 5)).
    rewrite mul_mul by (try apply u64_w; reflexivity). unfold u64. rewrite Z.add_mod_idemp_l by discriminate.
    replace (y - c + c) with y by lia. now apply Z.mod_small.
  - set (v := u64 (y - c) * 14757395258967641293). unfold u64. rewrite Z.add_mod_idemp_l by discriminate.
    replace (v mod two64 - a + a) with (v mod two64) by lia. symmetry. apply Z.mod_mod. discriminate.
Qed.
(** Some block leads from any state to any other. *)
Lemma block_onto h t : s64 h -> s64 t -> exists k1 k2, w64 k1 /\ w64 k2 /\ bmix k1 k2 h = t.
Proof.
  destruct h as [h1 h2], t as [t1 t2]. intros [H1 H2] [T1 T2]. cbn [fst snd] in *.
  destruct (affine_onto t1 1390208809 h2 T1) as (x & Hx & Ex). destruct (affine_onto t2 944331445 t1 T2) as (y & Hy & Ey).
  destruct (mix1_onto (Z.lxor h1 (rotl 37 x))) as (k1 & K1 & E1); [apply lxor_w; [assumption|apply rotl_w; [assumption|lia]]|].
  destruct (mix2_onto (Z.lxor h2 (rotl 33 y))) as (k2 & K2 & E2); [apply lxor_w; [assumption|apply rotl_w; [assumption|lia]]|].
  exists k1, k2. split; [assumption|]. split; [assumption|]. unfold bmix. rewrite E1, E2.
  rewrite (Z.lxor_comm h1 (Z.lxor h1 _)), (Z.lxor_comm h1), lxor_lxor, (Z.lxor_comm h2 (Z.lxor h2 _)), (Z.lxor_comm h2), lxor_lxor.
  rewrite !rotl_rotl by (assumption || lia). now rewrite Ex, Ey.
Qed.
(** A block can be undone. *)
Lemma block_back k1 k2 t : s64 t -> exists h, s64 h /\ bmix k1 k2 h = t.
Proof.
  destruct t as [t1 t2]. intros [T1 T2]. cbn [fst snd] in *.
  destruct (affine_onto t2 944331445 t1 T2) as (y & Hy & Ey). set (h2 := Z.lxor (rotl 33 y) (mix2 k2)).
  destruct (affine_onto t1 1390208809 h2 T1) as (x & Hx & Ex). set (h1 := Z.lxor (rotl 37 x) (mix1 k1)).
  exists (h1, h2). split.
  - split; cbn [fst snd]; (apply lxor_w; [apply rotl_w; [assumption|lia]|apply u64_w]).
  - unfold bmix, h1. rewrite lxor_lxor. unfold h2 at 2. rewrite lxor_lxor. rewrite !rotl_rotl by (assumption || lia). now rewrite Ex, Ey.
Qed.
Lemma rest_back fuel rest t : s64 t -> exists h, s64 h /\ (let (tl, h') := mblocks fuel rest h in mtail tl h') = t.
Proof.
  intros Ht. revert rest. assert (Tail : forall tl, exists h, s64 h /\ mtail tl h = t).
  { intros tl. destruct t as [t1 t2]. destruct Ht as [T1 T2]. cbn [fst snd] in *.
    exists (Z.lxor t1 (mix1 (le_num (firstn 8 tl))), Z.lxor t2 (mix2 (le_num (skipn 8 tl)))). split.
    - split; cbn [fst snd]; (apply lxor_w; [assumption|apply u64_w]).
    - unfold mtail. now rewrite !lxor_lxor. }
  induction fuel as [|f IH]; intros rest; [exact (Tail rest)|]. cbn [mblocks].
  destruct (16 <=? length rest)%nat; [|exact (Tail rest)].
  destruct (IH (skipn 16 rest)) as (h & Hh & E). destruct (block_back (le_num (firstn 8 rest)) (le_num (firstn 8 (skipn 8 rest))) h Hh) as (h0 & H0 & E0).
  exists h0. split; [assumption|]. rewrite E0. exact E.
Qed.
Lemma num_bytes n : forall z, 0 <= z < 256 ^ Z.of_nat n -> exists b, length b = n /\ le_num b = z.
Proof.
  induction n as [|n IH]; intros z Hz.
  - exists []. split; [reflexivity|]. cbn in *. lia.
  - rewrite Nat2Z.inj_succ, Z.pow_succ_r in Hz by lia.
    destruct (IH (z / 256)) as (b & Hb & E). { split; [apply Z.div_pos; lia|]. apply Z.div_lt_upper_bound; lia. }
    exists (z2b z :: b). split; [cbn; lia|]. cbn [le_num fold_right]. fold (le_num b). rewrite E.
    replace (b2z (z2b z)) with (z mod 256); [pose proof (Z.div_mod z 256); lia|]. symmetry. apply b2z_z2b.
Qed.
Lemma final_onto len h : s64 h -> exists h', s64 h' /\ h' <> h /\ mfinal len h' = mfinal len h.
Proof.
  intros Hh. destruct h as [h1 h2].
  set (a := u64 (Z.lxor h1 (u64 len) + Z.lxor h2 (u64 len))). set (a' := u64 (a + 1)).
  assert (Ha : w64 a) by apply u64_w. assert (Ha' : w64 a') by apply u64_w.
  assert (Hn : a' <> a).
  { unfold a', u64. unfold w64, two64 in *. destruct (Z.eq_dec a 18446744073709551615) as [->|N]; [discriminate|]. rewrite Z.mod_small; lia. }
  destruct (fmix_onto (u64 (mfinal len (h1, h2) - fmix a'))) as (b' & Hb' & Eb); [apply u64_w|].
  set (y := u64 (b' - a')). set (x := u64 (a' - y)).
  assert (Ex : u64 (x + y) = a'). { unfold x, u64. rewrite Z.add_mod_idemp_l by discriminate. replace (a' - y + y) with a' by lia. now apply Z.mod_small. }
  assert (Ey : u64 (y + a') = b'). { unfold y, u64. rewrite Z.add_mod_idemp_l by discriminate. replace (b' - a' + a') with b' by lia. now apply Z.mod_small. }
  exists (Z.lxor x (u64 len), Z.lxor y (u64 len)). split; [|split].
  - split; cbn [fst snd]; (apply lxor_w; apply u64_w).
  - intros [= E1 E2]. apply Hn. rewrite <- Ex. unfold a. now rewrite <- E1, <- E2, !lxor_lxor.
  - set (T := mfinal len (h1, h2)) in *. assert (HT : w64 T) by apply u64_w.
    cbn [mfinal]. cbv zeta. rewrite !lxor_lxor, Ex, Ey, Eb. unfold u64. rewrite Z.add_mod_idemp_r by discriminate.
    replace (fmix a' + (T - fmix a')) with T by lia. now apply Z.mod_small.
Qed.

Lemma mblocks_s64 fuel : forall b h, s64 h -> s64 (snd (mblocks fuel b h)).
Proof.
  induction fuel as [|f IH]; intros b h Hh; [exact Hh|]. cbn [mblocks]. destruct (16 <=? length b)%nat; [|exact Hh].
  apply IH. destruct h as [h1 h2]. unfold bmix. split; cbn [fst snd]; apply u64_w.
Qed.
Lemma mtail_s64 t h : s64 h -> s64 (mtail t h).
Proof. destruct h as [h1 h2]. intros [H1 H2]. cbn [fst snd] in *. split; cbn [fst snd mtail]; (apply lxor_w; [assumption|apply u64_w]). Qed.

(** Every name of at least 16 bytes shares its hash with another of the same length. *)
Lemma same_hash : forall k, (16 <= length k)%nat -> exists k', length k' = length k /\ k' <> k /\ murmur3Hash k' = murmur3Hash k.
Proof.
  intros k Hk. set (rest := skipn 16 k). set (f := pred (length k)).
  set (run := fun b h => let (tl, h') := mblocks f b h in mtail tl h').
  assert (Hm : forall b, (16 <= length b)%nat -> length b = length k ->
    murmur64 b = mfinal (zlen k) (run (skipn 16 b) (bmix (le_num (firstn 8 b)) (le_num (firstn 8 (skipn 8 b))) (0, 0)))).
  { intros b H1 H2. unfold murmur64, run, zlen. rewrite H2. replace (length k) with (S f) at 1 by (unfold f; lia). cbn [mblocks].
    replace (16 <=? length b)%nat with true by (symmetry; apply Nat.leb_le; assumption). now destruct (mblocks f _ _). }
  assert (Z0 : s64 (0, 0)) by now repeat split.
  set (s := bmix (le_num (firstn 8 k)) (le_num (firstn 8 (skipn 8 k))) (0, 0)).
  assert (Hs : s64 s) by (split; cbn [fst snd s bmix]; apply u64_w).
  assert (Hr : s64 (run rest s)).
  { unfold run. pose proof (mblocks_s64 f rest s Hs) as H. destruct (mblocks f rest s) as [tl h']. now apply mtail_s64. }
  destruct (final_onto (zlen k) _ Hr) as (t & Ht & Nt & Et).
  destruct (rest_back f rest t Ht) as (s' & Hs' & Es').
  destruct (block_onto (0, 0) s' Z0 Hs') as (k1 & k2 & H1 & H2 & Eb).
  destruct (num_bytes 8 k1 H1) as (b1 & L1 & E1). destruct (num_bytes 8 k2 H2) as (b2 & L2 & E2).
  assert (Hl : length (b1 ++ b2 ++ rest) = length k) by (unfold rest; rewrite !app_length, skipn_length; lia).
  assert (F1 : firstn 8 (b1 ++ b2 ++ rest) = b1) by (rewrite <- L1, firstn_app, Nat.sub_diag, firstn_all, firstn_O; apply app_nil_r).
  assert (F2 : skipn 8 (b1 ++ b2 ++ rest) = b2 ++ rest) by (rewrite <- L1, skipn_app, Nat.sub_diag, skipn_all; reflexivity).
  assert (F3 : firstn 8 (b2 ++ rest) = b2) by (rewrite <- L2, firstn_app, Nat.sub_diag, firstn_all, firstn_O; apply app_nil_r).
  assert (F4 : skipn 16 (b1 ++ b2 ++ rest) = rest).
  { rewrite app_assoc. replace 16%nat with (length (b1 ++ b2)) by (rewrite app_length; lia). rewrite skipn_app, Nat.sub_diag, skipn_all. reflexivity. }
  exists (b1 ++ b2 ++ rest). split; [assumption|].
  assert (Em : murmur64 (b1 ++ b2 ++ rest) = mfinal (zlen k) t) by (rewrite Hm by lia; rewrite F1, F2, F3, F4, E1, E2, Eb; unfold run; now rewrite Es').
  split.
  - intros E. apply Nt. rewrite <- Es'. fold (run rest s'). f_equal. rewrite <- Eb, <- E1, <- E2. unfold s.
    assert (G : firstn 8 (skipn 8 (b1 ++ b2 ++ rest)) = b2) by now rewrite F2. rewrite E in F1, G. now rewrite F1, G.
  - unfold murmur3Hash. f_equal. rewrite Em, Et. rewrite (Hm k) by lia. reflexivity.
Qed.

Lemma be_digits_length n : forall z, length (be_digits n z) = n.
Proof. induction n as [|n IH]; intros z; [reflexivity|]. cbn [be_digits length]. now rewrite IH. Qed.
Lemma murmur_length : forall k, length (murmur3Hash k) = 8%nat.
Proof. intros k. apply be_digits_length. Qed.
